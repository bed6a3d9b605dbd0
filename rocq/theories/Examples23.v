(** Non-trivial instances of the theorems in Properties23.v. *)
From Coq Require Import ZArith Reals Psatz String.
From Flocq Require Import Core IEEE754.Binary IEEE754.Bits.
From Verif Require Import Base Conc ConcFacts Num Spec SpecTiled SpecSched SpecBench MCeil MDouble MContract MFast MBench MBenchFast PDouble PPseudo PContract3 PFast5 SpecRound SpecFast.
From Verif Require Import Examples10 Examples11 Examples15 Properties23 MApp SpecApp.

(** The relation [machine]: another order of four products, with one of them fused. *)
Notation t x y := (TMul (TNum x) (TNum y)).
Example ex_C79_machine (a b c d e f g h : binary64) :
  machine (TAdd (TAdd (TAdd (TAdd (TNum nzero) (t a b)) (t c d)) (t e f)) (t g h))
    (nadd (fma64 c d (nmul a b)) (nadd (nmul h g) (nmul e f))).
Proof.
  exists (TAdd (TAdd (t a b) (t c d)) (TAdd (t h g) (t e f))). split.
  - eapply re_trans; [apply re_add_assoc|]. apply re_add.
    + apply re_add; [apply re_add_zero|apply re_refl].
    + eapply re_trans; [apply re_add_comm|]. apply re_add; [apply re_mul_comm|apply re_refl].
  - repeat (constructor || apply compiled_fma_r).
Qed.
Example ex_C79_separate e : machine e (separate e).
Proof. exists e. split; [constructor|]. induction e; cbn; by constructor. Qed.

(** The kernels with n = 256: arbitrary matrices, here of tenths. *)
Definition tenths (n : nat) : list binary64 := replicate (n * n) tenth.
Lemma tenths_length n : length (tenths n) = n * n.
Proof. apply replicate_length. Qed.
Lemma tenths_unit n : unit_entries (tenths n).
Proof. intros x [-> _]%elem_of_replicate. split; [reflexivity|]. pose proof tenth_value. rewrite Rabs_pos_eq; lra. Qed.
Lemma tenths_transposed n : is_transpose n n (tenths n) (tenths n).
Proof.
  split; [apply tenths_length|]. intros i j Hi Hj. unfold tenths. rewrite !lookup_replicate_2 by nia. done.
Qed.
Lemma zeros_zero n : is_zero n (replicate (n * n) (nzero : term)).
Proof. split; [apply replicate_length|]. intros i j Hi Hj. apply lookup_replicate_2. nia. Qed.
Definition n256 : nat := 256.
Lemma n256_256 : (256 | n256).
Proof. by exists 1. Qed.
Example ex_C79_kernels name : name ∈ right_names ->
  exists kernel, bench_kernel (pc (Some no_fma) true (TNum inf64) 8) n256 64 64 64 64 (TNum <$> tenths n256) (TNum <$> tenths n256) (TNum <$> tenths n256) (replicate (n256 * n256) (nzero : term)) name = Some kernel /\
    always kernel (fun D => forall R, Forall2 machine D R -> near_finite_product false n256 (tenths n256) (tenths n256) R).
Proof.
  intros Hname. refine (C79_kernels_finite n256 (pc (Some no_fma) true (TNum inf64) 8) _ _ _ _ 64 64 64 64 name n256_256 _ (tenths_length _) (tenths_length _) (tenths_unit _) (tenths_unit _)
    (tenths_transposed _) (zeros_zero _) (or_intror eq_refl) _ eq_refl eq_refl eq_refl eq_refl Hname _ _).
  - by apply Z.leb_le.
  - cbn. split_and!; reflexivity.
  - by eexists.
  - done.
Qed.
(** Small blocks. *)
Example ex_C79_gpu8 : near_in_any_order true 8 M8 M8 (multGPU_with 2 4 (TNum inf64) (TNum <$> M8) (TNum <$> M8) (replicate 64 (TNum inf64)) 8).
Proof.
  refine (proj1 (C79_all_block_sizes M8 M8 (replicate 64 (TNum inf64)) _ 8 eq_refl eq_refl eq_refl) 2 4 _ _ _ _ _); [lia|lia|by exists 4|by exists 2|by exists 1].
Qed.
Example ex_C79_register8 : always (multRegister_with 8 8 2 fma64 (fun iii jjj => iii * 2 + jjj) inf64 4 8 M8 M8 (replicate 64 inf64) 8) (near_product false 8 M8 M8).
Proof.
  refine (proj1 (proj2 (C79_intrinsics M8 M8 (replicate 64 inf64) _ 8 eq_refl eq_refl eq_refl)) 8 8 2 4 8 _ _ _ (Nat.divide_refl 8) (Nat.divide_refl 8) _ (Nat.divide_refl 8) (Nat.divide_refl 8) eq_refl eq_refl); try lia; by exists 4.
Qed.
Example ex_C79_application := C79_application o_tiled 1 KernelTiled M8 M8 I tiled_suits eq_refl eq_refl.
Example ex_C79_application_finite := C79_application_finite o_semi 1 Semi M8 M8 eq_refl semi_suits eq_refl eq_refl M8_unit M8_unit ltac:(cbn; lia).
Example ex_C79_order := C79_order_irrelevant_refuted 3 (replicate 9 nzero) ltac:(lia) (zeros_zero 3).

(** The shipped size. *)
Definition p_terms : platform term := pc (Some no_fma) true (TNum inf64) 8.
Example ex_C80_shipped name : name ∈ right_names ->
  always (bench_product (TNum (double_of 2)) bench_n p_terms name) (fun o => exists D, o = Some D /\
    forall C, Forall2 machine D C -> has_values bench_n (fun _ _ => 2%R) C /\ forall v, may_print bench_n C v -> v = double_of 8192).
Proof.
  intros Hname. refine (C80_check_exact bench_n p_terms name _ _ _ _ _ _ Hname _ _).
  - exact PBench64.bench_n_8.
  - exact PBench64.bench_n_small.
  - exact PBench64.bench_n_256.
  - apply pc_good, n4096.
  - by right.
  - cbn. split_and!; reflexivity.
  - by eexists.
  - done.
Qed.
(** Something is printed: [may_print] holds of the value without rearrangement. *)
Example ex_C80_prints (a b c d : binary64) : may_print 2 [a; b; c; d]
  (b64_sqrt rne (nadd (nadd (nadd (nadd nzero (nmul a a)) (nmul b b)) (nmul c c)) (nmul d d))).
Proof.
  eexists _, _. split; [reflexivity|]. split; [apply ex_C79_separate|]. reflexivity.
Qed.
