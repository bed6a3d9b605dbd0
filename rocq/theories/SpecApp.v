(** Specification of the application: the table of algorithms and the size
    conditions under which each of them is right. *)
From Verif Require Export Spec SpecTiled SpecSched MApp.

(** The accepted values of --algorithm. *)
Inductive choice := Single | Pseudodynamic | Algorithms | Looped | Semi | Combined | Proposal | KernelTest | KernelTiled.
Definition accepted : list (string * choice) :=
  [("single", Single); ("pseudodynamic", Pseudodynamic); ("algorithms", Algorithms); ("looped", Looped);
   ("semi", Semi); ("combined", Combined); ("proposal", Proposal); ("kernel_test", KernelTest); ("kernel_tiled", KernelTiled)]%string.
(** The value of --transposed an algorithm insists on, if any. *)
Definition requires_transposed (v : choice) : option bool :=
  match v with
  | Algorithms | Looped | Semi => Some true
  | Combined => Some false
  | Single | Pseudodynamic | Proposal | KernelTest | KernelTiled => None
  end.
Definition flag_ok (o : options) (v : choice) : Prop :=
  match requires_transposed v with Some b => o_transposed o = b | None => True end.

Section SpecApp.
  Context {T : Type} `{NumOps T}.
  (** The computation each choice stands for, on the globals A and B. *)
  Definition computation (o : options) (localities : nat) (v : choice) (A B : list T) : prog T (list T) :=
    let N := o_n o in
    match v with
    | Single => if o_repetitions o =? 0 then Ret []
                else single_matrix_multiply N A B (o_transposed o) (o_block_input o) (o_block_result o) (o_repetitions o)
    | Pseudodynamic =>
        static_improved_matrix_multiply N A B (o_transposed o) (o_block_input o) (o_block_result o)
          (o_min_work_size o) (o_max_work_difference o) (o_rel o) localities (o_repetitions o)
    | Algorithms => algorithms_matrix_multiply N A B (o_block_input o) (o_block_result o)
    | Looped => looped_matrix_multiply N A B (o_block_result o) (o_block_input o)
    | Semi => semi_matrix_multiply N A B (o_block_result o) (o_block_input o)
    | Combined => combined_matrix_multiply shipped N A B (o_repetitions o)
    | Proposal => proposal_matrix_multiply shipped 128 N A B
    | KernelTest => kernel_test_matrix_multiply kt_shipped kt_padding N A B (o_transposed o) (o_repetitions o)
    | KernelTiled => kernel_tiled_matrix_multiply shipped N A B (o_transposed o) (o_repetitions o)
    end.

  (** The common ending: print C at verbose >= 2, then check. *)
  Definition report (absdiff : T -> T -> T) (small : T -> bool) (o : options) (A B C : list T) : app T (outcome T) :=
    let rest := finish absdiff small o (Globals A B C false true) in
    if 2 <=? o_verbose o then ACall (print_matrix_sq (o_n o) C) (fun _ => rest) else rest.

  (** Two applications that cannot be told apart by their outcomes. *)
  Definition same_behaviour {R : Type} (a a' : app T R) : Prop :=
    (forall tol Q, app_always tol a Q <-> app_always tol a' Q) /\
    (forall out, app_ends a out <-> app_ends a' out) /\
    (forall E, app_fails E a <-> app_fails E a').

  (** The equations that multiplying by and adding zero and one satisfy for a
      number [x]; every finite double that is not negative is such an x. *)
  Definition unit_on (x : T) : Prop :=
    nmul x none1 = x /\ nmul x nzero = nzero /\ nadd nzero x = x /\ nadd x nzero = x.

  (** [ok] is the verdict of an entry-by-entry comparison of [C] with the matrix
      [f], which also requires [C] to have the right number of entries. *)
  Definition is_verdict (same : T -> T -> Prop) (N : nat) (f : nat -> nat -> T) (C : list T) (ok : bool) : Prop :=
    ok = true <-> length C = N * N /\ forall i j, i < N -> j < N -> exists c, C !! (i * N + j) = Some c /\ same c (f i j).
End SpecApp.

(** Sizes and options for which the algorithm computes the product. *)
Definition suitable (o : options) (localities : nat) (v : choice) : Prop :=
  let N := o_n o in
  match v with
  | Single => 0 < o_repetitions o /\ rec_ok (o_transposed o) (o_block_input o) (o_block_result o) N N
  | Pseudodynamic =>
      (Z.of_nat N * Z.of_nat N < 2 ^ 62)%Z /\ (0 <= o_min_work_size o)%Z /\ 0 < localities /\ 0 < o_repetitions o /\
      even_chain (Z.of_nat N) (o_min_work_size o) /\
      forall n, size_of (Z.of_nat N) (o_min_work_size o) n ->
        rec_ok (o_transposed o) (o_block_input o) (o_block_result o) N (Z.to_nat n)
  | Algorithms | Looped => 0 < o_block_result o /\ 0 < o_block_input o /\ (o_block_result o | N) /\ (o_block_input o | N)
  | Semi => 0 < o_block_input o /\ (4 | N) /\ (o_block_input o | N)
  | Combined => o_repetitions o = 1
  | Proposal => False
  | KernelTest => 0 < o_repetitions o /\ (4 | N) /\ SpecTiled.round_up N 512 <= N + 63
  | KernelTiled => 0 < o_repetitions o
  end.
(** The only data race of a suitable run is the one of combined.cpp on the flag
    [first]. *)
Definition tolerated (v : choice) (l : loc) : Prop := v = Combined /\ l = idFirst.
