(** C67: the benchmark program of /repo/otherExperiments as a whole. *)
From Coq Require Import ZArith String.
From Flocq Require Import IEEE754.Bits.
From Verif Require Import Conc ConcFacts SpecBench MCeil MDouble MBench PUtil PBench PBench64.

Section Properties15.
  Context {T : Type} `{NumOps T} (two : T) (root : T -> T).

  (** C67: for every array size from 8 on that is a multiple of 256, every
      address new[] can return and every kind of numbers in which 2*1 = 2 and so
      on: the names that compute the product all print the same check, the norm of
      the matrix that is 2 everywhere. *)
  Theorem C67_right n (p : platform T) prg name rest :
    bench_numbers two -> 8 <= n -> (256 | n) ->
    (forall a, a ∈ [p_A p; p_ATransposed p; p_B p; p_BTransposed p; p_C p] -> good_address n a) ->
    match p_fma p with Some f => fma_unit two f | None => True end ->
    p_reg_result p mod 4 = 0 /\ p_reg_BB p mod 4 = 0 /\ p_gpuasm_AA p mod 4 = 0 /\ p_gpuasm_BB p mod 4 = 0 ->
    name ∈ right_names ->
    (name ∈ ["register"; "gpuasm"]%string -> is_Some (p_fma p)) -> (name = "asm"%string -> p_asm p = true) ->
    always (bench_main_at two root n p (prg :: name :: rest)) (eq (BenchRun 0 (Some (root (sum_sq n (fun _ _ => two)))))).
  Proof. intros H1 H2 H3 H4 H5 H6. exact (main_right two root n p H2 H4 H1 H5 H6 H3 prg name rest). Qed.

  (** C67: blocked4 prints the norm of a matrix with three of four columns zero. *)
  Theorem C67_blocked4 n (p : platform T) prg rest :
    bench_numbers two -> 8 <= n -> (256 | n) ->
    (forall a, a ∈ [p_A p; p_ATransposed p; p_B p; p_BTransposed p; p_C p] -> good_address n a) ->
    always (bench_main_at two root n p (prg :: "blocked4"%string :: rest))
      (eq (BenchRun 0 (Some (root (sum_sq n (fun _ j => if decide (j mod 4 = 0) then two else nzero)))))).
  Proof. intros H1 H2 H3 H4. exact (main_blocked4 two root n p H2 H4 H1 H3 prg rest). Qed.

  (** C67: compiled without __FMA__, gpuasm prints the norm of the zero matrix;
      so does asm with a compiler that is not supported. *)
  Theorem C67_zero n (p : platform T) prg name rest :
    bench_numbers two -> 8 <= n -> (256 | n) ->
    (forall a, a ∈ [p_A p; p_ATransposed p; p_B p; p_BTransposed p; p_C p] -> good_address n a) ->
    p_reg_result p mod 4 = 0 /\ p_reg_BB p mod 4 = 0 /\ p_gpuasm_AA p mod 4 = 0 /\ p_gpuasm_BB p mod 4 = 0 ->
    name = "gpuasm"%string /\ p_fma p = None \/ name = "asm"%string /\ p_asm p = false ->
    always (bench_main_at two root n p (prg :: name :: rest)) (eq (BenchRun 0 (Some (root (sum_sq n (fun _ _ => nzero)))))).
  Proof. intros H1 H2 H3 H4 H5. exact (main_zero two root n p H2 H4 H1 H5 H3 prg name rest). Qed.

  (** C67: without an argument and with an unknown name nothing is computed or
      checked; the exit status is 0 all the same. *)
  Theorem C67_unknown n (p : platform T) argv :
    8 <= n -> (forall a, a ∈ [p_A p; p_ATransposed p; p_B p; p_BTransposed p; p_C p] -> good_address n a) ->
    match argv with [_] => True | _ :: name :: _ => name ∉ right_names /\ name <> "blocked4"%string | [] => False end ->
    bench_main_at two root n p argv = Ret (BenchRun 0 None).
  Proof. intros H2 H4. exact (main_other two root n p H2 H4 argv). Qed.

  (** C67: local arrays that are not aligned to 32 bytes: undefined behaviour. *)
  Theorem C67_misaligned n (p : platform T) prg name rest :
    8 <= n -> (forall a, a ∈ [p_A p; p_ATransposed p; p_B p; p_BTransposed p; p_C p] -> good_address n a) ->
    name = "register"%string /\ (p_reg_result p mod 4 <> 0 \/ p_reg_BB p mod 4 <> 0) \/
    name = "gpuasm"%string /\ (p_gpuasm_AA p mod 4 <> 0 \/ p_gpuasm_BB p mod 4 <> 0) ->
    always_ub (bench_main_at two root n p (prg :: name :: rest)).
  Proof. exact (main_misaligned two root n p prg name rest). Qed.
End Properties15.
Print Assumptions C67_right.
Print Assumptions C67_blocked4.
Print Assumptions C67_zero.
Print Assumptions C67_unknown.
Print Assumptions C67_misaligned.

(** C67 in binary64 with the fused operation and the square root of IEEE 754: the
    check is exact, 2n for the right product. *)
Theorem C67_right_double n (p : platform binary64) prg name rest :
  8 <= n -> (Z.of_nat n <= 2 ^ 25)%Z -> (256 | n) ->
  (forall a, a ∈ [p_A p; p_ATransposed p; p_B p; p_BTransposed p; p_C p] -> good_address n a) ->
  p_fma p = None \/ p_fma p = Some (b64_fma rne) ->
  p_reg_result p mod 4 = 0 /\ p_reg_BB p mod 4 = 0 /\ p_gpuasm_AA p mod 4 = 0 /\ p_gpuasm_BB p mod 4 = 0 ->
  name ∈ right_names ->
  (name ∈ ["register"; "gpuasm"]%string -> is_Some (p_fma p)) -> (name = "asm"%string -> p_asm p = true) ->
  always (bench_main_at (double_of 2) (b64_sqrt rne) n p (prg :: name :: rest)) (eq (BenchRun 0 (Some (double_of (2 * Z.of_nat n))))).
Proof. intros H1 H2 H3 H4 H5 H6. exact (main64_right n p H1 H2 H4 H5 H6 H3 prg name rest). Qed.
Print Assumptions C67_right_double.

(** C67: the shipped size 4096: 8192. *)
Theorem C67_right_shipped (p : platform binary64) prg name rest :
  (forall a, a ∈ [p_A p; p_ATransposed p; p_B p; p_BTransposed p; p_C p] -> good_address bench_n a) ->
  p_fma p = None \/ p_fma p = Some (b64_fma rne) ->
  p_reg_result p mod 4 = 0 /\ p_reg_BB p mod 4 = 0 /\ p_gpuasm_AA p mod 4 = 0 /\ p_gpuasm_BB p mod 4 = 0 ->
  name ∈ right_names ->
  (name ∈ ["register"; "gpuasm"]%string -> is_Some (p_fma p)) -> (name = "asm"%string -> p_asm p = true) ->
  always (bench_main (double_of 2) (b64_sqrt rne) p (prg :: name :: rest)) (eq (BenchRun 0 (Some (double_of 8192)))).
Proof.
  intros H4 H5 H6. exact (C67_right_double bench_n p prg name rest bench_n_8 bench_n_small bench_n_256 H4 H5 H6).
Qed.
Print Assumptions C67_right_shipped.

(** C67: blocked4 prints n, gpuasm without __FMA__ 0 and register without
    __FMA__ another wrong number; that this is reported is refuted, for the exit
    status is 0. *)
Theorem C67_wrong_reported_refuted n (p : platform binary64) prg rest :
  8 <= n -> (Z.of_nat n <= 2 ^ 25)%Z -> (256 | n) ->
  (forall a, a ∈ [p_A p; p_ATransposed p; p_B p; p_BTransposed p; p_C p] -> good_address n a) ->
  p_reg_result p mod 4 = 0 /\ p_reg_BB p mod 4 = 0 /\ p_gpuasm_AA p mod 4 = 0 /\ p_gpuasm_BB p mod 4 = 0 ->
  always (bench_main_at (double_of 2) (b64_sqrt rne) n p (prg :: "blocked4"%string :: rest)) (eq (BenchRun 0 (Some (double_of (Z.of_nat n))))) /\
  (p_fma p = None ->
   always (bench_main_at (double_of 2) (b64_sqrt rne) n p (prg :: "gpuasm"%string :: rest)) (eq (BenchRun 0 (Some (double_of 0)))) /\
   always (bench_main_at (double_of 2) (b64_sqrt rne) n p (prg :: "register"%string :: rest))
     (fun r => exists c, r = BenchRun 0 (Some c) /\ c = b64_sqrt rne (double_of (7 * (Z.of_nat n * Z.of_nat n))) /\ c <> double_of (2 * Z.of_nat n))).
Proof.
  intros H1 H2 H3 H4 H6. split; [exact (main64_blocked4 n p H1 H2 H4 H3 prg rest)|]. intros Hno. split.
  - exact (main64_zero n p H1 H4 H6 H3 prg "gpuasm"%string rest (or_introl (conj eq_refl Hno))).
  - eapply must_mono; [|exact (main64_register_no_fma n p H1 H2 H4 H6 H3 prg rest Hno)].
    intros r m <-. eexists. split; [reflexivity|]. split; [reflexivity|].
    exact (root7_ne n H2 (Nat.lt_le_trans 0 8 n (proj1 (Nat.ltb_lt 0 8) eq_refl) H1) (n2 n H3)).
Qed.
Print Assumptions C67_wrong_reported_refuted.
