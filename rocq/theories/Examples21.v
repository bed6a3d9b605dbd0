(** Non-trivial instances of the theorems in Properties21.v. *)
From Coq Require Import ZArith Reals Psatz.
From Flocq Require Import Core IEEE754.Binary IEEE754.Bits.
From Verif Require Import Base Conc ConcFacts Num Spec SpecTiled SpecContract MCeil MDouble PCeil PDouble SpecRound MReport.
From Verif Require Import Examples10 Examples11 Properties21 MApp SpecApp SpecCount SpecReport.

Example ex_C75_order := C75_order_of_each_algorithm o_semi 1 Semi eq_refl semi_suits.
Example ex_C75_semi := C75_every_product_once o_semi 1 Semi eq_refl semi_suits.
Example ex_C75_tiled := C75_every_product_once o_tiled 1 KernelTiled I tiled_suits.
Example ex_C75_single := C75_operation_counts o_single 1 Single I single_suits.
Example ex_C75_single_straight : never_chunked o_single Single.
Proof. by left. Qed.
Example ex_C75_alg := C75_operation_counts o_alg 1 Algorithms eq_refl alg_suits.
(** The formula of an entry: N = 2, one chunk of two products *)
Example ex_C75_formula :
  match run (algorithms_matrix_multiply 2 (unknowns false 2) (unknowns true 2) 2 2) ∅ with Ok (C, _) => C !! 1 | _ => None end =
  Some (Plus Zero (Plus (Plus Zero (Times (Entry false 0) (Entry true 2))) (Times (Entry false 1) (Entry true 3)))).
Proof. vm_compute. reflexivity. Qed.
(** The padding of kernel_tiled: 256 products and four chunk sums for N = 8 *)
Example ex_C75_width : width KernelTiled 8 = 256 /\ chunk_additions o_tiled KernelTiled 4.
Proof. split; reflexivity. Qed.

Notation o_looped := (opt 8 true 5 2 4 2 "looped").
Lemma looped_suits : suitable o_looped 1 Looped.
Proof. split_and!; [cbn; lia|cbn; lia|exists 2; reflexivity|exists 4; reflexivity]. Qed.

Local Open Scope R_scope.
Lemma one_measurable : measurable (double_of 1).
Proof.
  split; [reflexivity|]. rewrite one_value. split.
  - change 1 with (bpow radix2 0). apply bpow_le. lia.
  - change 1 with (bpow radix2 0). apply bpow_le. lia.
Qed.
Example ex_C76_figures := C76_figures_accurate o_looped Looped (double_of 1) (double_of 1) ltac:(set_solver) eq_refl
  ltac:(cbn; lia) ltac:(cbn; lia) one_measurable one_measurable.
Example ex_C76_refuted := C76_performance_of_the_run_refuted o_looped Looped 1 (double_of 1) (double_of 1) ltac:(set_solver) I eq_refl eq_refl looped_suits
  ltac:(cbn; lia) ltac:(cbn; lia) one_measurable one_measurable.
Example ex_C76_flops : val64 (flops64 1024 1024 1024) = IZR (2 * 1024 * 1024 * 1024).
Proof. apply C76_flops_exact; lia. Qed.
(** Above 2^53 the count is rounded. *)
Example ex_C76_flops_rounded : flops64 300007 300007 300007 <> flops64 300007 300007 300008 /\
  B2FF 53 1024 (flops64 94906267 94906267 1) = B2FF 53 1024 (double_of (2 * 94906267 * 94906267)) /\ (2 * 94906267 * 94906267 > 2 ^ 53)%Z.
Proof.
  split; [|split]; [intros E; apply (f_equal (B2FF 53 1024)) in E; vm_compute in E; discriminate|vm_compute; reflexivity|lia].
Qed.
Example ex_C76_none := C76_no_repetitions 8 8 8 (double_of 1) ltac:(lia) ltac:(lia) ltac:(lia) eq_refl ltac:(rewrite one_value; lra).
Example ex_C76_no_time := C76_no_time 3 8 8 8 ltac:(lia) ltac:(lia) ltac:(lia) ltac:(lia).
Example ex_C76_same := C76_repetitions_ignored Z Z_ops zabs zsmall o_looped Looped 17 1 zgen ltac:(set_solver) I.
(** 4 ms for n = 100: 0.5 Gflops;  999 microseconds: infinite *)
Example ex_C76_bench := C76_benchmark_rate 100 4000000 ltac:(lia) ltac:(lia).
Example ex_C76_bench_value : B2FF 53 1024 (bench_gflops64 100 4000000) = B2FF 53 1024 (div64 (double_of 1) (double_of 2)).
Proof. vm_compute. reflexivity. Qed.
Example ex_C76_fast := C76_benchmark_fast 100 999000 ltac:(lia) ltac:(lia).
