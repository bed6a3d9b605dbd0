(** C63-C66: the experiment kernels with AVX intrinsics and inline assembler. *)
From Verif Require Import Conc ConcFacts SpecExp2 Tools MExp2 PUtil PTiled5 PExp2 PExpIntrin PExpReg PExpAsm.

Section Properties14.
  Context {T : Type} `{NumOps T}.

  (** C63: multIntrinLoop for all block sizes and any x*y+z; offA, offB and offC
      are the addresses of the arguments in doubles. *)
  Theorem C63_intrin bx by_ kc fma junk offA offB offC (A B C : list T) n :
    0 < bx -> 0 < by_ -> 0 < kc -> (bx | n) -> (by_ | n) -> (kc | n) -> (4 | bx) -> (16 | by_) -> (4 | kc) ->
    n * n <= length A -> n * n <= length B -> length C = n * n ->
    offA mod 4 = 0 -> offB mod 4 = 0 -> offC mod 4 = 0 ->
    always (multIntrinLoop_with bx by_ kc fma junk offA offB offC A B C n) (is_matrix n (fma_entry fma n A B)).
  Proof. exact (multIntrinLoop_correct bx by_ kc fma junk offA offB offC A B C n). Qed.
  Theorem C63_intrin_exact bx by_ kc fma junk offA offB offC (A B C : list T) n :
    fma_exact fma ->
    0 < bx -> 0 < by_ -> 0 < kc -> (bx | n) -> (by_ | n) -> (kc | n) -> (4 | bx) -> (16 | by_) -> (4 | kc) ->
    n * n <= length A -> n * n <= length B -> length C = n * n ->
    offA mod 4 = 0 -> offB mod 4 = 0 -> offC mod 4 = 0 ->
    always (multIntrinLoop_with bx by_ kc fma junk offA offB offC A B C n) (is_product n A B).
  Proof.
    intros Hf H1 H2 H3 H4 H5 H6 H7 H8 H9 HA HB HC H10 H11 H12.
    eapply must_mono; [|exact (C63_intrin bx by_ kc fma junk offA offB offC A B C n H1 H2 H3 H4 H5 H6 H7 H8 H9 HA HB HC H10 H11 H12)].
    intros R ? HR. eapply is_matrix_ext; [|exact HR]. intros i j _ _. exact (fma_entry_exact fma n A B i j Hf).
  Qed.
  Theorem C63_intrin_shipped fma junk offA offB offC (A B C : list T) n :
    (128 | n) -> n * n <= length A -> n * n <= length B -> length C = n * n ->
    offA mod 4 = 0 -> offB mod 4 = 0 -> offC mod 4 = 0 ->
    always (multIntrinLoop fma junk offA offB offC A B C n) (is_matrix n (fma_entry fma n A B)).
  Proof.
    intros Hn. apply C63_intrin; try exact Hn; try (by exists 32); try (by exists 8); apply Nat.ltb_lt; reflexivity.
  Qed.
  Theorem C63_intrin_misaligned bx by_ kc fma junk offA offB offC (A B C : list T) n :
    0 < bx -> 0 < by_ -> 0 < kc -> 0 < n -> offA mod 4 <> 0 \/ offB mod 4 <> 0 \/ offC mod 4 <> 0 ->
    always_ub (multIntrinLoop_with bx by_ kc fma junk offA offB offC A B C n).
  Proof. exact (multIntrinLoop_misaligned bx by_ kc fma junk offA offB offC A B C n). Qed.
  Theorem C63_intrin_other_sizes bx by_ kc fma junk offA offB offC (A B C : list T) n :
    0 < bx -> 0 < by_ -> 0 < kc -> (4 | kc) -> ~ (bx | n) -> length A < n * n + n ->
    always_ub (multIntrinLoop_with bx by_ kc fma junk offA offB offC A B C n).
  Proof. exact (multIntrinLoop_other bx by_ kc fma junk offA offB offC A B C n). Qed.

  (** C64: multRegister compiled with __FMA__ *)
  Theorem C64_register_fma bx by_ kc fma junk offR offBB (A B C : list T) n :
    0 < bx -> 0 < by_ -> 0 < kc -> (bx | n) -> (by_ | n) -> (kc | n) -> (8 | bx) -> (8 | by_) ->
    n * n <= length A -> n * n <= length B -> length C = n * n ->
    offR mod 4 = 0 -> offBB mod 4 = 0 ->
    always (multRegister_with bx by_ kc fma (fun iii jjj => iii * 2 + jjj) junk offR offBB A B C n) (is_matrix n (fma_entry fma n A B)).
  Proof. exact (multRegister_correct bx by_ kc fma junk offR offBB A B C n). Qed.
  Theorem C64_register_fma_shipped fma junk offR offBB (A B C : list T) n :
    (256 | n) -> n * n <= length A -> n * n <= length B -> length C = n * n ->
    offR mod 4 = 0 -> offBB mod 4 = 0 ->
    always (multRegister_fma fma junk offR offBB A B C n) (is_matrix n (fma_entry fma n A B)).
  Proof.
    intros Hn. apply C64_register_fma; try exact Hn; try (by exists 32); try (apply Nat.ltb_lt; reflexivity).
    apply (Nat.divide_trans _ 256); [by exists 4|exact Hn].
  Qed.
  (** Compiled without __FMA__ the products are added to the wrong registers. *)
  Theorem C64_register_no_fma bx by_ kc fma junk offR offBB (A B C : list T) n :
    0 < bx -> 0 < by_ -> 0 < kc -> (bx | n) -> (by_ | n) -> (kc | n) -> (8 | bx) -> (8 | by_) ->
    n * n <= length A -> n * n <= length B -> length C = n * n ->
    offR mod 4 = 0 -> offBB mod 4 = 0 ->
    always (multRegister_with bx by_ kc fma (fun iii jjj => jjj * 2 + iii) junk offR offBB A B C n) (is_matrix n (misplaced_entry fma n A B)).
  Proof. exact (multRegister_misplaced bx by_ kc fma junk offR offBB A B C n). Qed.
  Theorem C64_register_no_fma_shipped junk offR offBB (A B C : list T) n :
    (256 | n) -> n * n <= length A -> n * n <= length B -> length C = n * n ->
    offR mod 4 = 0 -> offBB mod 4 = 0 ->
    always (multRegister_no_fma junk offR offBB A B C n) (is_matrix n (misplaced_entry no_fma n A B)).
  Proof.
    intros Hn. apply C64_register_no_fma; try exact Hn; try (by exists 32); try (apply Nat.ltb_lt; reflexivity).
    apply (Nat.divide_trans _ 256); [by exists 4|exact Hn].
  Qed.
  (** Rows 5, 6 and 7 of every group of eight are zero, for all inputs; so the
      product is wrong whenever it has a non-zero entry there. *)
  Theorem C64_register_no_fma_product_refuted junk offR offBB (A B C : list T) n i j :
    (256 | n) -> n * n <= length A -> n * n <= length B -> length C = n * n ->
    offR mod 4 = 0 -> offBB mod 4 = 0 -> i < n -> j < n -> 5 <= i mod 8 -> prod_entry n A B i j <> nzero ->
    always (multRegister_no_fma junk offR offBB A B C n) (fun R => R !! (i * n + j) = Some nzero /\ ~ is_product n A B R).
  Proof.
    intros Hn HA HB HC HoR HoB Hi Hj Hm Hne.
    eapply must_mono; [|exact (C64_register_no_fma_shipped junk offR offBB A B C n Hn HA HB HC HoR HoB)].
    intros R ? HR. destruct HR as [_ HR]. pose proof (HR i j Hi Hj) as E. rewrite misplaced_zero in E by done.
    split; [exact E|]. intros [_ HP]. specialize (HP i j Hi Hj). congruence.
  Qed.
  Theorem C64_register_misaligned bx by_ kc fma idx junk offR offBB (A B C : list T) n :
    0 < bx -> 0 < by_ -> 0 < kc -> 0 < n -> offR mod 4 <> 0 \/ offBB mod 4 <> 0 ->
    always_ub (multRegister_with bx by_ kc fma idx junk offR offBB A B C n).
  Proof. exact (multRegister_misaligned bx by_ kc fma idx junk offR offBB A B C n). Qed.
  Theorem C64_register_other_sizes bx by_ kc fma idx junk offR offBB (A B C : list T) n :
    0 < bx -> 0 < by_ -> 0 < kc -> ~ (bx | n) -> length A < n * n + n ->
    always_ub (multRegister_with bx by_ kc fma idx junk offR offBB A B C n).
  Proof. exact (multRegister_other bx by_ kc fma idx junk offR offBB A B C n). Qed.

  (** C65: multASM *)
  Theorem C65_asm offA offB (A B C : list T) n :
    n * n <= length A -> n * n <= length B -> length C = n * n -> (4 | n) -> offA mod 4 = 0 -> offB mod 4 = 0 ->
    always (multASM true offA offB A B C n) (is_matrix n (fun i j => dot_lanes n (fun k => nmul (ent n B j k) (ent n A i k)) n)).
  Proof. exact (multASM_correct offA offB A B C n). Qed.
  Theorem C65_asm_exact `{!Exact T} offA offB (A B C : list T) n :
    (forall x y : T, nmul x y = nmul y x) ->
    n * n <= length A -> n * n <= length B -> length C = n * n -> (4 | n) -> offA mod 4 = 0 -> offB mod 4 = 0 ->
    always (multASM true offA offB A B C n) (is_product_t n A B).
  Proof.
    intros Hc HA HB HC H4 HoA HoB. eapply must_mono; [|exact (C65_asm offA offB A B C n HA HB HC H4 HoA HoB)].
    intros R ? HR. eapply is_matrix_ext; [|exact HR]. intros i j Hi _. exact (asm_exact A B n i j Hc (Nat.lt_lt_0 _ _ Hi) H4).
  Qed.
  (** With a compiler that is not supported, C is overwritten by zeros. *)
  Theorem C65_asm_unsupported offA offB (A B C : list T) n : length C = n * n ->
    always (multASM false offA offB A B C n) (is_matrix n (fun _ _ => dot (fun _ => nzero) (seq 0 4))).
  Proof. exact (multASM_unsupported offA offB A B C n). Qed.
  Theorem C65_asm_misaligned offA offB (A B C : list T) n :
    0 < n -> offA mod 4 <> 0 \/ offB mod 4 <> 0 -> always_ub (multASM true offA offB A B C n).
  Proof. exact (multASM_misaligned offA offB A B C n). Qed.
  Theorem C65_asm_other_sizes offA offB (A B C : list T) n :
    2 <= n -> ~ (4 | n) -> always_ub (multASM true offA offB A B C n).
  Proof. exact (multASM_other offA offB A B C n). Qed.
  Theorem C65_asm_one offA offB (A B C : list T) n :
    n = 1 -> length A < 4 \/ length B < 4 -> always_ub (multASM true offA offB A B C n).
  Proof. exact (multASM_one offA offB A B C n). Qed.

  (** C66: multGPUASM compiled with __FMA__ *)
  Theorem C66_gpuasm b kc fma junk offAA offBB (A B C : list T) n :
    0 < b -> 0 < kc -> (b | n) -> (kc | n) -> (4 | b) -> (4 | kc) ->
    n * n <= length A -> n * n <= length B -> length C = n * n -> offAA mod 4 = 0 -> offBB mod 4 = 0 ->
    always (multGPUASM_with b kc (Some fma) junk offAA offBB A B C n) (is_matrix n (fma_lanes_entry fma kc n A B)).
  Proof. exact (multGPUASM_entries b kc (Some fma) junk offAA offBB A B C n). Qed.
  Theorem C66_gpuasm_exact `{!Exact T} b kc fma junk offAA offBB (A B C : list T) n :
    fma_exact fma -> 0 < b -> 0 < kc -> (b | n) -> (kc | n) -> (4 | b) -> (4 | kc) ->
    n * n <= length A -> n * n <= length B -> length C = n * n -> offAA mod 4 = 0 -> offBB mod 4 = 0 ->
    always (multGPUASM_with b kc (Some fma) junk offAA offBB A B C n) (is_product_t n A B).
  Proof.
    intros Hf H1 H2 H3 H4 H5 H6 HA HB HC H7 H8.
    eapply must_mono; [|exact (C66_gpuasm b kc fma junk offAA offBB A B C n H1 H2 H3 H4 H5 H6 HA HB HC H7 H8)].
    intros R ? HR. eapply is_matrix_ext; [|exact HR]. intros i j _ _. exact (fma_lanes_exact fma kc n A B i j Hf H2 H6 H4).
  Qed.
  Theorem C66_gpuasm_shipped fma junk offAA offBB (A B C : list T) n :
    (256 | n) -> n * n <= length A -> n * n <= length B -> length C = n * n -> offAA mod 4 = 0 -> offBB mod 4 = 0 ->
    always (multGPUASM (Some fma) junk offAA offBB A B C n) (is_matrix n (fma_lanes_entry fma 256 n A B)).
  Proof.
    intros Hn. apply C66_gpuasm; try exact Hn; try (by exists 64); apply Nat.ltb_lt; reflexivity.
  Qed.
  (** Compiled without __FMA__ the products are left out: C becomes zero. *)
  Theorem C66_gpuasm_no_fma `{!UnitLaws T} b kc junk offAA offBB (A B C : list T) n :
    0 < b -> 0 < kc -> (b | n) -> (kc | n) -> (4 | b) -> (4 | kc) ->
    n * n <= length A -> n * n <= length B -> length C = n * n -> offAA mod 4 = 0 -> offBB mod 4 = 0 ->
    always (multGPUASM_with b kc None junk offAA offBB A B C n) (is_zero n).
  Proof.
    intros H1 H2 H3 H4 H5 H6 HA HB HC H7 H8.
    eapply must_mono; [|exact (multGPUASM_entries b kc None junk offAA offBB A B C n H1 H2 H3 H4 H5 H6 HA HB HC H7 H8)].
    intros R ? HR. eapply is_matrix_ext; [|exact HR]. intros i j _ _. exact (olanes_none kc n A B i j).
  Qed.
  Theorem C66_gpuasm_misaligned b kc fma junk offAA offBB (A B C : list T) n :
    0 < b -> 0 < kc -> 0 < n -> offAA mod 4 <> 0 \/ offBB mod 4 <> 0 ->
    always_ub (multGPUASM_with b kc fma junk offAA offBB A B C n).
  Proof. exact (multGPUASM_misaligned b kc fma junk offAA offBB A B C n). Qed.
  Theorem C66_gpuasm_other_sizes b kc fma junk offAA offBB (A B C : list T) n :
    0 < b -> 0 < kc -> ~ (b | n) -> length A < n * n + n ->
    always_ub (multGPUASM_with b kc fma junk offAA offBB A B C n).
  Proof. exact (multGPUASM_other b kc fma junk offAA offBB A B C n). Qed.
End Properties14.
Print Assumptions C63_intrin.
Print Assumptions C63_intrin_exact.
Print Assumptions C63_intrin_shipped.
Print Assumptions C63_intrin_misaligned.
Print Assumptions C63_intrin_other_sizes.
Print Assumptions C64_register_fma.
Print Assumptions C64_register_fma_shipped.
Print Assumptions C64_register_no_fma.
Print Assumptions C64_register_no_fma_shipped.
Print Assumptions C64_register_no_fma_product_refuted.
Print Assumptions C64_register_misaligned.
Print Assumptions C64_register_other_sizes.
Print Assumptions C65_asm.
Print Assumptions C65_asm_exact.
Print Assumptions C65_asm_unsupported.
Print Assumptions C65_asm_misaligned.
Print Assumptions C65_asm_other_sizes.
Print Assumptions C65_asm_one.
Print Assumptions C66_gpuasm.
Print Assumptions C66_gpuasm_exact.
Print Assumptions C66_gpuasm_shipped.
Print Assumptions C66_gpuasm_no_fma.
Print Assumptions C66_gpuasm_misaligned.
Print Assumptions C66_gpuasm_other_sizes.
