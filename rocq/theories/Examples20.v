(** Non-trivial instances of the theorems in Properties20.v. *)
From Verif Require Import Base Conc Num Spec SpecTiled SpecSched SpecApp SpecDomain SpecWord PApp Properties10 Properties20 Examples10 PWord PWord6 MWordApp.

(** The default command line, and with 64-bit indices it is out of bounds, too. *)
Example ex_C74_default gen : main_w M64 zabs zsmall (default_options relz) 1 gen = main zabs zsmall (default_options relz) 1 gen.
Proof. apply (C74_ordinary_sizes _ _ _ _ _ Single); [cbn; set_solver|]. repeat split; cbn; lia. Qed.
Example ex_C74_default_fails gen : app_fails (fun e => e = EOob) (main_w M64 zabs zsmall (default_options relz) 1 gen).
Proof. rewrite ex_C74_default. apply C58_default_command_line. Qed.
(** A size not covered by [ordinary]: algorithm single with N = 2^31. *)
Definition N31 : nat := Z.to_nat (2 ^ 31).
Lemma N31_Z : Z.of_nat N31 = (2 ^ 31)%Z.
Proof. unfold N31. rewrite Z2Nat.id; [done|]. lia. Qed.
Global Opaque N31.
Example ex_C74_single gen :
  main_w M64 zabs zsmall (opt N31 true 1 0 128 128 "single") 1 gen = main zabs zsmall (opt N31 true 1 0 128 128 "single") 1 gen.
Proof.
  apply C74_no_wrap_same; cbn [opt o_n o_repetitions o_algorithm]; rewrite ?N31_Z; [lia..|].
  intros v Hin. assert (v = Single) as ->. { apply (accepted_inj "single"%string); [done|unfold accepted; set_solver]. }
  cbn [no_wrap o_n opt o_transposed o_block_input]. rewrite N31_Z. split; [lia|intros _ _; lia].
Qed.
Example ex_C74_end_to_end :
  app_always (tolerated Single) (main_w M64 zabs zsmall (opt 8 true 2 2 4 4 "single") 1 zgen)
    (fun r => r = Outcome 0 false (Some true) (zgen <$> seq 0 (8 * 8))).
Proof.
  refine (C74_end_to_end zabs zsmall (opt 8 true 2 2 4 4 "single") 1 zgen Single eq_refl _ I _ _ (z_unit 0) _).
  - cbn. set_solver.
  - split; [cbn; lia|].
    exists 4, 1. split; [reflexivity|]. split; [cbn; lia|]. split; [right; cbn; lia|].
    intros _ _ _. split; [exists 1; reflexivity|exists 2; reflexivity].
  - repeat split; cbn; lia.
  - intros k _. split; [apply z_unit|apply z_same].
Qed.
(** N = 2^32: N * N is 0 in 64 bits. *)
Definition N32 : nat := Z.to_nat (2 ^ 32).
Lemma N32_Z : Z.of_nat N32 = (2 ^ 32)%Z.
Proof. unfold N32. rewrite Z2Nat.id; [done|]. lia. Qed.
Global Opaque N32.
Example ex_C74_square gen alg : app_fails (fun e => e = EOutOfRange) (main_w M64 zabs zsmall (opt N32 true 1 0 128 128 alg) 1 gen).
Proof. apply C74_square_wraps; [done|]. cbn [opt o_n]. rewrite N32_Z. lia. Qed.
(** Blocks of four elements, N = 2^24: 2^22 * 2^22 * 2^22 blocks. *)
Definition N24 : nat := Z.to_nat (2 ^ 24).
Lemma N24_Z : Z.of_nat N24 = (2 ^ 24)%Z.
Proof. unfold N24. rewrite Z2Nat.id; [done|]. lia. Qed.
Lemma N24_div : Z.of_nat (N24 / 4) = (2 ^ 22)%Z.
Proof. rewrite Nat2Z.inj_div, N24_Z. done. Qed.
Global Opaque N24.
Example ex_C74_looped gen :
  app_always (fun _ => False)
    (main_w M64 zabs zsmall (Options N24 true 1 0 4 4 false "looped" 16 10000 relz false) 1 gen)
    (fun r => r = Outcome 0 false None (replicate (N24 * N24) 0%Z)).
Proof.
  refine (C74_looped_wraps zabs zsmall (Options N24 true 1 0 4 4 false "looped" 16 10000 relz false) 1 gen
    eq_refl eq_refl eq_refl eq_refl _ _ _ _ _); cbn [o_n o_verbose o_block_result o_block_input]; rewrite ?N24_Z, ?N24_div; try lia.
  exists 4%Z. lia.
Qed.

(** A small modulus, computed: with 6-bit words the indices of a 4 x 4 matrix fit,
    and those of an 8 x 8 matrix do not. *)
Example ex_small_fits : naive_matrix_multiply_w 64 4 (zgen <$> seq 0 16) (zgen <$> seq 0 16) =
  naive_matrix_multiply 4 (zgen <$> seq 0 16) (zgen <$> seq 0 16).
Proof. apply naive_w_eq. lia. Qed.
Example ex_small_wraps : build_B_w (T := Z) 64 (opt 8 true 1 0 4 4 "single") false = Err EOutOfRange.
Proof. vm_compute. reflexivity. Qed.
Example ex_small_loop : wrng 16 0 15 4 = ([0; 4; 8; 12; 0; 4; 8; 12; 0; 4; 8; 12; 0; 4; 8; 12; 0], false).
Proof. vm_compute. reflexivity. Qed.
