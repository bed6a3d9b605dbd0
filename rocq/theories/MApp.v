(** Models of src/matrix_multiply_application/matrix_multiply.cpp (options,
    hpx_main, main) and of src/variants/proposal.cpp.  Definitions only. *)
From Coq Require Export String.
From Verif Require Export Conc Num MUtil MNaive MRecursive MSchedule MVariants MTiled MKTest MTile.
Local Close Scope string_scope.

Section Proposal.
  Context {T : Type} `{NumOps T}.
  (** The #defines L3_X .. L1_K_STEP of proposal.cpp:20-42 (the values are those
      of [shipped]) and the local constant tile_size of line 127. *)
  Context (b : blocks) (tile_size : nat).

  (** proposal.cpp:69-123: the members A_trans and B.  transposed, block_result,
      block_input, repetitions and verbose are stored and never used again,
      except that verbose prints two lines. *)
  Definition proposal_new (N X_size Y_size K_size : nat) (A_org B_org : list T) : prog T (list T * list T) :=
    if negb (verify_blocking_setup b) then Err ETerminate else
    let! A_trans :=
      forS 0 N 1 (fun x A_trans =>
        forS 0 N 1 (fun k A_trans =>
          let! v := vat A_org (x * N + k) in
          vset_at A_trans (x * K_size + k) v) A_trans) (replicate (K_size * X_size) nzero) in
    let! A_trans := transpose_matrix_rect K_size X_size A_trans in
    let! B :=
      forS 0 N 1 (fun y B =>
        forS 0 N 1 (fun k B =>
          let! v := vat B_org (k * N + y) in
          vset_at B (k * Y_size + y) v) B) (replicate (K_size * Y_size) nzero) in
    Ret (A_trans, B).

  (** proposal.cpp:125-364 after the constructor.  The code between lines 167
      and 313 is commented out. *)
  Definition proposal_matrix_multiply (N : nat) (A_org B_org : list T) : prog T (list T) :=
    let X_size := N + padding N (L3_X b) in
    let Y_size := N + padding N (L3_Y b) in
    let K_size := N + padding N (L3_K b) in
    let! m := proposal_new N X_size Y_size K_size A_org B_org in
    let A_trans := m.1 in
    let! A_trans_tiled := ofres (make_tiled nzero 2 A_trans [Tiling tile_size (L3_X b); Tiling tile_size (L3_K b)]) in
    (* line 149 tiles A_trans, not B *)
    let! B_padded_tiled := ofres (make_tiled nzero 2 A_trans [Tiling tile_size (L3_Y b); Tiling tile_size (L3_K b)]) in
    let C_padded_tiled := replicate (X_size * Y_size) nzero in
    let! C_untiled_padded :=
      ofres (undo_tiling nzero C_padded_tiled [Tiling tile_size (L3_X b); Tiling tile_size (L3_Y b)]) in
    let! C_return :=
      forS 0 N 1 (fun x C_return =>
        forS 0 N 1 (fun y C_return =>
          let! v := vget C_untiled_padded (x * Y_size + y) in
          vset C_return (x * N + y) v) C_return) (replicate (N * N) nzero) in
    (* line 325: std::fill with 0.0 *)
    Ret (replicate (length C_return) nzero).
End Proposal.

(** * The application *)

(** The command line, matrix_multiply.cpp:248-285 and 62-74.  Parsing is modelled in
    MCmdline.v; an [options] value is the content of the variables map.  [o_rel]
    stands for max_relative_work_difference, see MSchedule.v. *)
Record options := Options {
  o_n : nat; o_transposed : bool; o_repetitions : nat; o_verbose : nat;
  o_block_result : nat; o_block_input : nat; o_check : bool; o_algorithm : string;
  o_min_work_size : Z; o_max_work_difference : Z; o_rel : Z -> Z -> bool; o_help : bool }.
(** The default values, lines 250-284. *)
Definition default_options (rel : Z -> Z -> bool) : options :=
  Options 4 true 1 0 128 128 false "single" 256 10000 rel false.

(** The application is a sequence of calls.  Every call runs in a memory of its
    own: the arrays a callee creates are local to it, and its threads are joined
    before it returns.  The globals A, B and C are values handed on. *)
Inductive app (T R : Type) : Type :=
| ADone (r : R)
| AFail (e : err)
| ACall {X : Type} (p : prog T X) (k : X -> app T R).
Arguments ADone {T R}. Arguments AFail {T R}. Arguments ACall {T R X}.

Fixpoint abind {T R S} (a : app T R) (f : R -> app T S) : app T S :=
  match a with
  | ADone r => f r
  | AFail e => AFail e
  | ACall p k => ACall p (fun x => abind (k x) f)
  end.

(** Some execution of the application ends with [out]. *)
Fixpoint app_ends {T R} (a : app T R) (out : res R) : Prop :=
  match a with
  | ADone r => out = Ok r
  | AFail e => out = Fail e
  | ACall p k => (exists x, may_return p x /\ app_ends (k x) out) \/ (exists e, may_fail p ∅ e /\ out = Fail e)
  end.

(** Every execution terminates without error or data race (other than on the
    tolerated locations) in a state satisfying [Q]. *)
Fixpoint app_always {T R} (tol : loc -> Prop) (a : app T R) (Q : R -> Prop) : Prop :=
  match a with
  | ADone r => Q r
  | AFail _ => False
  | ACall p k => always_tol tol p (fun x => app_always tol (k x) Q)
  end.
(** Every execution ends in an error satisfying [E]. *)
Fixpoint app_fails {T R} (E : err -> Prop) (a : app T R) : Prop :=
  match a with
  | ADone _ => False
  | AFail e => E e
  | ACall p k => must_fail E p ∅ \/ always p (fun x => app_fails E (k x))
  end.

(** The globals after hpx::init (matrix_multiply.cpp:32-51). *)
Record globals (T : Type) := Globals { g_A : list T; g_B : list T; g_C : list T; g_non_hpx : bool; g_is_root : bool }.
Arguments Globals {T}. Arguments g_A {T}. Arguments g_B {T}. Arguments g_C {T}. Arguments g_non_hpx {T}. Arguments g_is_root {T}.

(** What main leaves behind: the exit status, whether "not a valid algorithm" is
    printed, the verdict of the check if one is printed, and C. *)
Record outcome (T : Type) := Outcome { r_status : nat; r_invalid : bool; r_check : option bool; r_C : list T }.
Arguments Outcome {T}. Arguments r_status {T}. Arguments r_invalid {T}. Arguments r_check {T}. Arguments r_C {T}.

Section App.
  Context {T : Type} `{NumOps T}.
  (** std::abs(first - second), and the comparison "< 1E-10" *)
  Context (absdiff : T -> T -> T) (small : T -> bool).
  Context (o : options).
  Let N := o_n o.

  (** The root locality runs hpx_main; [num_localities] localities exist;
      [gen k] is the k-th number drawn from the generator. *)
  Context (num_localities : nat) (gen : nat -> T).

  (** matrix_multiply.cpp:96-118 *)
  Definition build_B (transposed : bool) : prog T (list T) :=
    forS 0 N 1 (fun i B =>
      forS 0 N 1 (fun j B =>
        vset_at B (if transposed then j * N + i else i * N + j) (if i =? j then none1 else nzero)) B)
      (replicate (N * N) nzero).

  (** matrix_multiply.cpp:134-156; C is an empty vector before the loop. *)
  Definition app_single (A B : list T) : prog T (list T) :=
    forS 0 (o_repetitions o) 1 (fun r _ =>
      distribute_recursively N A B (o_transposed o) (o_block_input o) (o_block_result o) [r] 0 0 N) [].

  Definition when (c : bool) {X} (p : prog T X) (a : app T (globals T)) : app T (globals T) :=
    if c then ACall p (fun _ => a) else a.

  (** matrix_multiply.cpp:227-240: printing C at verbose >= 2 *)
  Definition hpx_end (A B C : list T) : app T (globals T) :=
    when (2 <=? o_verbose o) (print_matrix_sq N C) (ADone (Globals A B C false true)).

  (** matrix_multiply.cpp:134-225.  The exception thrown by the checks of the
      transposed flag leaves hpx_main. *)
  Definition hpx_dispatch (A B : list T) : app T (globals T) :=
    let algorithm := o_algorithm o in
    let transposed := o_transposed o in
    let run p := ACall p (hpx_end A B) in
    if (algorithm =? "single")%string then run (app_single A B)
    else if (algorithm =? "pseudodynamic")%string then
      run (static_improved_matrix_multiply N A B transposed (o_block_input o) (o_block_result o)
             (o_min_work_size o) (o_max_work_difference o) (o_rel o) num_localities (o_repetitions o))
    else if (algorithm =? "algorithms")%string then
      if negb transposed then AFail EException
      else run (algorithms_matrix_multiply N A B (o_block_input o) (o_block_result o))
    else if (algorithm =? "looped")%string then
      if negb transposed then AFail EException
      else run (looped_matrix_multiply N A B (o_block_result o) (o_block_input o))
    else if (algorithm =? "semi")%string then
      if negb transposed then AFail EException
      else run (semi_matrix_multiply N A B (o_block_result o) (o_block_input o))
    else if (algorithm =? "combined")%string then
      if transposed then AFail EException
      else run (combined_matrix_multiply shipped N A B (o_repetitions o))
    else if (algorithm =? "proposal")%string then
      run (proposal_matrix_multiply shipped 128 N A B)
    else ADone (Globals A B [] true true).

  (** matrix_multiply.cpp:57-241 *)
  Definition hpx_main : app T (globals T) :=
    if o_help o then ADone (Globals [] [] [] false false) else
    let A := gen <$> seq 0 (N * N) in
    when (2 <=? o_verbose o) (print_matrix_sq N A) (
      ACall (build_B (o_transposed o)) (fun B =>
        when (2 <=? o_verbose o) (if negb (o_transposed o) then print_matrix_sq N B else print_matrix_transposed_sq N B)
          (hpx_dispatch A B))).

  (** matrix_multiply.cpp:393-413: std::equal on two ranges *)
  Definition equal_results (C Cref : list T) : bool :=
    (length C =? length Cref) && forallb (fun p => small (absdiff p.1 p.2)) (zip C Cref).

  (** matrix_multiply.cpp:421-424 *)
  Definition diff_matrix (C Cref : list T) : prog T (list T) :=
    forS 0 (N * N) 1 (fun k diff =>
      let! r := vat Cref k in
      let! c := vat C k in
      vset_at diff k (absdiff r c)) (replicate (N * N) nzero).

  (** matrix_multiply.cpp:357-430 *)
  Definition finish (g : globals T) : app T (outcome T) :=
    let C := g_C g in
    let reference := if negb (o_transposed o) then naive_matrix_multiply N (g_A g) (g_B g)
                     else naive_matrix_multiply_transposed N (g_A g) (g_B g) in
    if g_is_root g && o_check o then
      ACall reference (fun Cref =>
        let ok := equal_results C Cref in
        if 2 <=? o_verbose o then
          ACall (print_matrix_sq N Cref) (fun _ =>
          ACall (diff_matrix C Cref) (fun diff =>
          ACall (print_matrix_sq N diff) (fun _ => ADone (Outcome 0 false (Some ok) C))))
        else ADone (Outcome 0 false (Some ok) C))
    else ADone (Outcome 0 false None C).

  (** matrix_multiply.cpp:317-355, then [finish].  An exception thrown in
      hpx_main does not come back from hpx::init (the runtime ends the process). *)
  Definition main : app T (outcome T) :=
    abind hpx_main (fun g =>
      let after C :=
        let g' := Globals (g_A g) (g_B g) C (g_non_hpx g) (g_is_root g) in
        if 2 <=? o_verbose o then ACall (print_matrix_sq N C) (fun _ => finish g') else finish g' in
      if (o_algorithm o =? "kernel_test")%string then
        ACall (kernel_test_matrix_multiply kt_shipped kt_padding N (g_A g) (g_B g) (o_transposed o) (o_repetitions o)) after
      else if (o_algorithm o =? "kernel_tiled")%string then
        ACall (kernel_tiled_matrix_multiply shipped N (g_A g) (g_B g) (o_transposed o) (o_repetitions o)) after
      else if g_non_hpx g then ADone (Outcome 1 true None (g_C g))
      else finish g).
End App.
