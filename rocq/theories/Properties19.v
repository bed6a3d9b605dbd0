(** Theorems about the exact set of options for which the algorithms compute the
    product (C73), and about the blocked kernel when block_input does not divide N
    (C06). *)
From Verif Require Import Base Conc Num Spec SpecTiled SpecSched SpecApp MKernels SpecDomain PDomain1 PDomain4 MApp.

(** C06: for block sizes that are multiples of four the call stays inside the
    matrices exactly when the last chunk of the last row of the block does, and then
    every entry is the dot product that runs on into the following row. *)
Theorem C06_over_read {T} `{NumOps T} (A B : list T) N x y block_result block_input :
  (4 | block_result) -> 0 < block_input ->
  (x + block_result - 1) * N + cdiv N block_input * block_input <= length A ->
  (y + block_result - 1) * N + cdiv N block_input * block_input <= length B ->
  exists C, kernel_transposed_blocked A B (replicate (block_result * block_result) nzero) N x y block_result block_input = Ret C /\
    is_block block_result x y (over_entry block_input N A B) C.
Proof. exact (ktb_over A B N x y block_result block_input). Qed.
Theorem C06_over_read_limit {T} `{NumOps T} (A B C : list T) N x y block_result block_input :
  length C = block_result * block_result -> 0 < block_result -> 0 < block_input -> 0 < N ->
  length A < (x + block_result - 1) * N + cdiv N block_input * block_input \/
  length B < (y + block_result - 1) * N + cdiv N block_input * block_input ->
  kernel_transposed_blocked A B C N x y block_result block_input = Err EOob.
Proof. exact (ktb_over_fails A B C N x y block_result block_input). Qed.
Print Assumptions C06_over_read.
Print Assumptions C06_over_read_limit.

(** C73 *)
Theorem C73_inside {T} `{NumOps T, !Exact T} o localities v (A B : list T) :
  0 < o_n o -> flag_ok o v -> in_range o v -> computes o localities v ->
  length A = o_n o * o_n o -> length B = o_n o * o_n o ->
  always_tol (tolerated v) (computation o localities v A B) (is_matrix (o_n o) (pentry (o_transposed o) (o_n o) A B)).
Proof. exact (domain_inside o localities v A B). Qed.
Theorem C73_outside o localities v : 0 < o_n o -> flag_ok o v -> in_range o v -> ~ computes o localities v ->
  exists A B : list Z, length A = o_n o * o_n o /\ length B = o_n o * o_n o /\
    forall C, may_return (computation o localities v A B) C -> ~ is_matrix (o_n o) (pentry (o_transposed o) (o_n o) A B) C.
Proof. exact (domain_outside o localities v). Qed.
Theorem C73_exact_domain o localities v : 0 < o_n o -> flag_ok o v -> in_range o v ->
  computes o localities v <->
  forall A B : list Z, length A = o_n o * o_n o -> length B = o_n o * o_n o ->
    always_tol (tolerated v) (computation o localities v A B) (is_matrix (o_n o) (pentry (o_transposed o) (o_n o) A B)).
Proof. exact (domain_exact o localities v). Qed.
Theorem C73_no_lucky_schedule o localities v : 0 < o_n o -> flag_ok o v -> in_range o v ->
  computes o localities v <->
  forall A B : list Z, length A = o_n o * o_n o -> length B = o_n o * o_n o ->
    exists C, may_return (computation o localities v A B) C /\ is_matrix (o_n o) (pentry (o_transposed o) (o_n o) A B) C.
Proof. exact (domain_some_schedule o localities v). Qed.
Theorem C73_without_races o localities v : 0 < o_n o -> flag_ok o v -> in_range o v ->
  computes o localities v /\ (v = Combined -> o_n o <= 256) <->
  forall A B : list Z, length A = o_n o * o_n o -> length B = o_n o * o_n o ->
    always (computation o localities v A B) (is_matrix (o_n o) (pentry (o_transposed o) (o_n o) A B)).
Proof. exact (domain_strict o localities v). Qed.
Print Assumptions C73_inside.
Print Assumptions C73_outside.
Print Assumptions C73_exact_domain.
Print Assumptions C73_no_lucky_schedule.
Print Assumptions C73_without_races.
