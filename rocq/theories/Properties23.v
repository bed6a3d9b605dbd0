(** C79, C80: sums in any order (-ffast-math). *)
From Coq Require Import ZArith Reals Psatz String.
From Flocq Require Import Core IEEE754.Binary IEEE754.Bits.
From Verif Require Import Conc ConcFacts Base Num Tools Spec SpecExp SpecExp2 SpecBench MExp MExp2 MBench MCeil MDouble MContract MFast MBenchFast.
From Verif Require Import Properties13 Properties14 PExp2 PContract3 PFast PFast2 PFast3 PFast4 PFast5 MApp SpecApp SpecRound SpecFast.
Local Open Scope nat_scope.

(** C79: the ten kernels of the benchmark that compute the product, with the block
    sizes of the sources: whatever order of summation and whatever contractions the
    compiler chooses, per entry, an entry of the result is within the bound. *)
Theorem C79_kernels n (p : platform term) (A B Bt : list binary64) (C : list term) pA pB pBt pC name :
  (256 | n) -> length A = n * n -> length B = n * n -> is_transpose n n B Bt -> is_zero n C ->
  p_fma p = None \/ p_fma p = Some no_fma ->
  p_reg_result p mod 4 = 0 /\ p_reg_BB p mod 4 = 0 /\ p_gpuasm_AA p mod 4 = 0 /\ p_gpuasm_BB p mod 4 = 0 ->
  offset_of pA mod 4 = 0 -> offset_of pB mod 4 = 0 -> offset_of pBt mod 4 = 0 -> offset_of pC mod 4 = 0 ->
  name ∈ right_names -> (name ∈ ["register"; "gpuasm"]%string -> is_Some (p_fma p)) -> (name = "asm"%string -> p_asm p = true) ->
  exists kernel, bench_kernel p n pA pB pBt pC (TNum <$> A) (TNum <$> B) (TNum <$> Bt) C name = Some kernel /\
    always kernel (fun D => forall R, Forall2 machine D R -> near_product false n A B R).
Proof.
  intros H1 H2 H3 H4 H5 H6 H7 H8 H9 H10 H11 H12 H13 H14.
  exact (kernel_near n p A B Bt C H1 H2 H3 H4 H5 H6 H7 pA pB pBt pC H8 H9 H10 H11 name H12 H13 H14).
Qed.
Print Assumptions C79_kernels.
(** C79: with entries in [-1,1] there is no overflow, in no order. *)
Theorem C79_kernels_finite n (p : platform term) (A B Bt : list binary64) (C : list term) pA pB pBt pC name :
  (256 | n) -> (Z.of_nat n <= 524288)%Z -> length A = n * n -> length B = n * n -> unit_entries A -> unit_entries B ->
  is_transpose n n B Bt -> is_zero n C ->
  p_fma p = None \/ p_fma p = Some no_fma ->
  p_reg_result p mod 4 = 0 /\ p_reg_BB p mod 4 = 0 /\ p_gpuasm_AA p mod 4 = 0 /\ p_gpuasm_BB p mod 4 = 0 ->
  offset_of pA mod 4 = 0 -> offset_of pB mod 4 = 0 -> offset_of pBt mod 4 = 0 -> offset_of pC mod 4 = 0 ->
  name ∈ right_names -> (name ∈ ["register"; "gpuasm"]%string -> is_Some (p_fma p)) -> (name = "asm"%string -> p_asm p = true) ->
  exists kernel, bench_kernel p n pA pB pBt pC (TNum <$> A) (TNum <$> B) (TNum <$> Bt) C name = Some kernel /\
    always kernel (fun D => forall R, Forall2 machine D R -> near_finite_product false n A B R).
Proof.
  intros H1 Hn H2 H3 HuA HuB H4 H5 H6 H7 H8 H9 H10 H11 H12 H13 H14.
  exact (kernel_near_finite n p A B Bt C H1 H2 H3 H4 H5 H6 H7 pA pB pBt pC H8 H9 H10 H11 name H12 H13 H14 HuA HuB Hn).
Qed.
Print Assumptions C79_kernels_finite.

(** C79: other block sizes.  [kernel] leaves terms every evaluation of which is
    near the product. *)
Definition near_in_any_order (transposed : bool) (n : nat) (A B : list binary64) (kernel : prog term (list term)) : Prop :=
  always kernel (fun D => forall R, Forall2 machine D R -> near_product transposed n A B R).
Theorem C79_all_block_sizes (A B : list binary64) (C : list term) junk n :
  length A = n * n -> length B = n * n -> length C = n * n ->
  (forall b kc, 0 < b -> 0 < kc -> (b | n) -> (kc | n) -> (4 | kc) ->
    near_in_any_order true n A B (multGPU_with b kc junk (TNum <$> A) (TNum <$> B) C n)) /\
  (forall bx by_ kc, 0 < bx -> 0 < by_ -> 0 < kc -> (bx | n) -> (by_ | n) -> (kc | n) -> (4 | bx) -> (4 | by_) -> (4 | kc) ->
    near_in_any_order false n A B (multExchanged_with bx by_ kc junk (TNum <$> A) (TNum <$> B) C n)) /\
  (forall bx by_ kc offA offB offC,
    0 < bx -> 0 < by_ -> 0 < kc -> (bx | n) -> (by_ | n) -> (kc | n) -> (4 | bx) -> (16 | by_) -> (4 | kc) ->
    offA mod 4 = 0 -> offB mod 4 = 0 -> offC mod 4 = 0 ->
    near_in_any_order false n A B (multIntrinLoop_with bx by_ kc no_fma junk offA offB offC (TNum <$> A) (TNum <$> B) C n)) /\
  (forall bx by_ kc offR offBB, 0 < bx -> 0 < by_ -> 0 < kc -> (bx | n) -> (by_ | n) -> (kc | n) -> (8 | bx) -> (8 | by_) ->
    offR mod 4 = 0 -> offBB mod 4 = 0 ->
    near_in_any_order false n A B (multRegister_with bx by_ kc no_fma (fun iii jjj => iii * 2 + jjj) junk offR offBB (TNum <$> A) (TNum <$> B) C n)) /\
  (forall b kc offAA offBB, 0 < b -> 0 < kc -> (b | n) -> (kc | n) -> (4 | b) -> (4 | kc) -> offAA mod 4 = 0 -> offBB mod 4 = 0 ->
    near_in_any_order true n A B (multGPUASM_with b kc (Some no_fma) junk offAA offBB (TNum <$> A) (TNum <$> B) C n)).
Proof. intros HA HB. exact (blocks_near A B n HA HB C junk). Qed.
Print Assumptions C79_all_block_sizes.

(** C79: the kernels with intrinsics as written, on doubles and with the fused
    operation of IEEE 754. *)
Theorem C79_intrinsics (A B C : list binary64) junk n :
  length A = n * n -> length B = n * n -> length C = n * n ->
  (forall bx by_ kc offA offB offC,
    0 < bx -> 0 < by_ -> 0 < kc -> (bx | n) -> (by_ | n) -> (kc | n) -> (4 | bx) -> (16 | by_) -> (4 | kc) ->
    offA mod 4 = 0 -> offB mod 4 = 0 -> offC mod 4 = 0 ->
    always (multIntrinLoop_with bx by_ kc fma64 junk offA offB offC A B C n) (near_product false n A B)) /\
  (forall bx by_ kc offR offBB, 0 < bx -> 0 < by_ -> 0 < kc -> (bx | n) -> (by_ | n) -> (kc | n) -> (8 | bx) -> (8 | by_) ->
    offR mod 4 = 0 -> offBB mod 4 = 0 ->
    always (multRegister_with bx by_ kc fma64 (fun iii jjj => iii * 2 + jjj) junk offR offBB A B C n) (near_product false n A B)) /\
  (forall b kc offAA offBB, 0 < b -> 0 < kc -> (b | n) -> (kc | n) -> (4 | b) -> (4 | kc) -> offAA mod 4 = 0 -> offBB mod 4 = 0 ->
    always (multGPUASM_with b kc (Some fma64) junk offAA offBB A B C n) (near_product true n A B)).
Proof. intros HA HB. exact (intrinsics_near A B n HA HB C junk). Qed.
Print Assumptions C79_intrinsics.

(** C79: the algorithms of the application, were they compiled that way; and as they
    are compiled, for [compiled] is a case of [machine].  The exponent in the bound is
    N and not N plus the number of chunks and of zeros of the padding as in C49 and C68. *)
Theorem C79_application o localities v (A B : list binary64) : flag_ok o v -> suitable o localities v ->
  let N := o_n o in length A = N * N -> length B = N * N ->
  always_tol (tolerated v) (computation o localities v (TNum <$> A) (TNum <$> B)) (fun D =>
    forall C, Forall2 machine D C -> near_product (multiplies o v) N A B C).
Proof. intros Hf Hs N HA HB. exact (application_any N A B o localities v HA HB eq_refl Hf Hs). Qed.
Print Assumptions C79_application.
Theorem C79_application_finite o localities v (A B : list binary64) : flag_ok o v -> suitable o localities v ->
  let N := o_n o in length A = N * N -> length B = N * N -> unit_entries A -> unit_entries B -> (Z.of_nat N <= 524288)%Z ->
  always_tol (tolerated v) (computation o localities v (TNum <$> A) (TNum <$> B)) (fun D =>
    forall C, Forall2 machine D C -> near_finite_product (multiplies o v) N A B C).
Proof. intros Hf Hs N HA HB H1 H2 H3. exact (application_any_finite N A B o localities v HA HB eq_refl Hf Hs H1 H2 H3). Qed.
Print Assumptions C79_application_finite.

(** C79: that the result does not depend on the order is refuted, for every size
    above 2 and without any contraction. *)
Theorem C79_order_irrelevant_refuted n (C : list term) : 3 <= n -> is_zero n C ->
  exists A B : list binary64, length A = n * n /\ length B = n * n /\
  always (multNaive (TNum <$> A) (TNum <$> B) C n) (fun D => exists e e' : term,
    D !! 0 = Some e /\ rearranged e e' /\ val64 (separate e) = 1%R /\ val64 (separate e') = 0%R).
Proof. exact (order_matters n C). Qed.
Print Assumptions C79_order_irrelevant_refuted.

(** C80: times the identity the kernels are exact in any order. *)
Theorem C80_identity_exact n (p : platform term) (A B Bt : list binary64) (C : list term) pA pB pBt pC name :
  (256 | n) -> length A = n * n -> (forall x, x ∈ A -> finite64 x = true) -> is_identity n B -> is_identity n Bt -> is_zero n C ->
  p_fma p = None \/ p_fma p = Some no_fma ->
  p_reg_result p mod 4 = 0 /\ p_reg_BB p mod 4 = 0 /\ p_gpuasm_AA p mod 4 = 0 /\ p_gpuasm_BB p mod 4 = 0 ->
  offset_of pA mod 4 = 0 -> offset_of pB mod 4 = 0 -> offset_of pBt mod 4 = 0 -> offset_of pC mod 4 = 0 ->
  name ∈ right_names -> (name ∈ ["register"; "gpuasm"]%string -> is_Some (p_fma p)) -> (name = "asm"%string -> p_asm p = true) ->
  exists kernel, bench_kernel p n pA pB pBt pC (TNum <$> A) (TNum <$> B) (TNum <$> Bt) C name = Some kernel /\
    always kernel (fun D => forall R, Forall2 machine D R -> has_values n (fun i j => val64 (ent n A i j)) R).
Proof.
  intros H1 H2 Hfin HI HIt H5 H6 H7 H8 H9 H10 H11 H12 H13 H14.
  exact (kernel_identity n p A B Bt C H1 H2 (proj1 HI) (identity_transposed n B Bt HI HIt) H5 H6 H7 pA pB pBt pC H8 H9 H10 H11 name H12 H13 H14 HI HIt Hfin).
Qed.
Print Assumptions C80_identity_exact.
(** C80: the benchmark, in two translation units: the program is [bench_product]
    followed by [bench_check] (the first theorem); every evaluation of the kernel's
    terms is a matrix of twos and every evaluation of the check prints 2n. *)
Theorem C80_program {T} `{NumOps T} (two : T) (root : T -> T) n (p : platform T) prg name rest :
  bench_main_at two root n p (prg :: name :: rest) =
  (let! o := bench_product two n p name in
   match o with None => Ret (BenchRun 0 None) | Some C => let! check := bench_check root n C in Ret (BenchRun 0 (Some check)) end).
Proof. exact (main_is_product two root n p prg name rest). Qed.
Print Assumptions C80_program.
Theorem C80_check_exact n (p : platform term) name :
  8 <= n -> (Z.of_nat n <= 2 ^ 25)%Z -> (256 | n) ->
  (forall a, a ∈ [p_A p; p_ATransposed p; p_B p; p_BTransposed p; p_C p] -> good_address n a) ->
  p_fma p = None \/ p_fma p = Some no_fma ->
  p_reg_result p mod 4 = 0 /\ p_reg_BB p mod 4 = 0 /\ p_gpuasm_AA p mod 4 = 0 /\ p_gpuasm_BB p mod 4 = 0 ->
  name ∈ right_names ->
  (name ∈ ["register"; "gpuasm"]%string -> is_Some (p_fma p)) -> (name = "asm"%string -> p_asm p = true) ->
  always (bench_product (TNum (double_of 2)) n p name) (fun o => exists D, o = Some D /\
    forall C, Forall2 machine D C -> has_values n (fun _ _ => 2%R) C /\ forall v, may_print n C v -> v = double_of (2 * Z.of_nat n)).
Proof. exact (product_any n p name). Qed.
Print Assumptions C80_check_exact.
