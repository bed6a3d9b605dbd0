(** Non-trivial instances of the theorems in Properties19.v, over the integers. *)
From Verif Require Import Base Conc Num Spec SpecTiled SpecSched SpecApp MKernels SpecDomain PDomain2 Properties19 MApp.

Definition relf (a b : Z) : bool := false.
(** n transposed repetitions block_result block_input algorithm min_work_size max_work_difference *)
Definition opt19 n tr reps br bi alg mws maxd := Options n tr reps 0 br bi false alg mws maxd relf false.

(** C06: chunks of three in rows of eight; the block of the first four rows is
    computed from nine positions per row, the block of the last four is not. *)
Definition eight : list Z := Z.of_nat <$> seq 0 64.
Example ex_C06_over := C06_over_read (ones 8) eight 8 0 0 4 3 ltac:(by exists 1) ltac:(lia) ltac:(by apply Nat.leb_le) ltac:(by apply Nat.leb_le).
Example ex_C06_over_value : over_entry 3 8 (ones 8) eight 0 0 = 36%Z /\ prod_t_entry 8 (ones 8) eight 0 0 = 28%Z.
Proof. split; reflexivity. Qed.
Example ex_C06_limit := C06_over_read_limit (ones 8) eight (replicate (4 * 4) 0%Z) 8 4 0 4 3 eq_refl ltac:(lia) ltac:(lia) ltac:(lia)
  ltac:(left; by apply Nat.ltb_lt).

(** C73: options inside the domain of each algorithm. *)
Example ex_C73_single : computes (opt19 12 true 2 4 3 "single" 16 10000) 1 Single.
Proof.
  split; [cbn; lia|]. exists 3, 2. split_and!; [reflexivity|cbn; lia|right; cbn; lia|]. intros _ _ H4. lia.
Qed.
Example ex_C73_single_product (A B : list Z) := C73_inside (opt19 12 true 2 4 3 "single" 16 10000) 1 Single A B
  ltac:(cbn; lia) I ltac:(intros Hv; discriminate Hv) ex_C73_single.
(** Three localities, two of which compute; 8 is split into four packages of
    size four, which are split again. *)
Example ex_C73_ps : computes (opt19 8 false 1 8 0 "pseudodynamic" 2 0) 3 Pseudodynamic.
Proof.
  split; [cbn; lia|]. eexists. split; [vm_compute; reflexivity|]. split.
  - intros i j Hi Hj. cbn in Hi, Hj. do 8 (destruct i as [|i]; [do 8 (destruct j as [|j]; [vm_compute; lia|]); lia|]). lia.
  - intros w Hw. exists (Z.to_nat (wN w)), 0. rewrite Nat.mul_1_r. split_and!; [reflexivity| |by left|by intros ?].
    cbn in Hw. rewrite !elem_of_cons, elem_of_nil in Hw. naive_solver lia.
Qed.
Example ex_C73_looped : computes (opt19 12 true 1 4 6 "looped" 16 10000) 1 Looped.
Proof. split_and!; [cbn; lia|cbn; lia|by exists 3|by exists 2]. Qed.
Example ex_C73_kernel_test : computes (opt19 452 false 3 4 6 "kernel_test" 16 10000) 1 KernelTest.
Proof. split_and!; [cbn; lia|by exists 113| |reflexivity]. apply Nat.leb_le. reflexivity. Qed.
Example ex_C73_combined : computes (opt19 300 false 1 4 6 "combined" 16 10000) 1 Combined.
Proof. reflexivity. Qed.
Example ex_C73_combined_race : ~ forall A B : list Z, length A = 300 * 300 -> length B = 300 * 300 ->
  always (computation (opt19 300 false 1 4 6 "combined" 16 10000) 1 Combined A B) (is_matrix 300 (pentry false 300 A B)).
Proof.
  intros Hall. apply (C73_without_races (opt19 300 false 1 4 6 "combined" 16 10000) 1 Combined) in Hall as [_ Hs].
  - specialize (Hs eq_refl). cbn [o_n opt19] in Hs. lia.
  - cbn [o_n opt19]. lia.
  - reflexivity.
  - intros Hv. discriminate Hv.
Qed.

(** Options outside. *)
Lemma not_rec_12_6_5 : ~ rec_ok true 5 6 12 12.
Proof.
  intros (ms&d&H1&H2&H3&H4). destruct d as [|[|d]]; cbn in *; [lia| |].
  - assert (ms = 6) as -> by lia. destruct (H4 eq_refl ltac:(lia) ltac:(lia)) as [[k Hk] _]. lia.
  - assert (0 < 2 ^ d) by (apply Nat.neq_0_lt_0, Nat.pow_nonzero; lia). destruct H3 as [?|H3]; [lia|]. nia.
Qed.
Example ex_C73_single_outside := C73_outside (opt19 12 true 2 6 5 "single" 16 10000) 1 Single
  ltac:(cbn; lia) I ltac:(intros Hv; discriminate Hv) (fun Hc => not_rec_12_6_5 (proj2 Hc)).
(** Seven is odd: the schedule loses the last row and column. *)
Example ex_C73_ps_outside : ~ computes (opt19 7 false 1 8 0 "pseudodynamic" 2 0) 3 Pseudodynamic.
Proof.
  intros (_&all&Hs&Hc&_). vm_compute in Hs. injection Hs as <-. specialize (Hc 6 6 ltac:(cbn; lia) ltac:(cbn; lia)). vm_compute in Hc. lia.
Qed.
Example ex_C73_ps_wrong := C73_outside (opt19 7 false 1 8 0 "pseudodynamic" 2 0) 3 Pseudodynamic
  ltac:(cbn; lia) I ltac:(intros _; split; [reflexivity|cbn; lia]) ex_C73_ps_outside.
(** The same options on one locality are inside. *)
Example ex_C73_ps_one : computes (opt19 7 false 1 8 0 "pseudodynamic" 2 0) 1 Pseudodynamic.
Proof.
  split; [cbn; lia|]. eexists. split; [vm_compute; reflexivity|]. split.
  - intros i j Hi Hj. cbn in Hi, Hj. do 7 (destruct i as [|i]; [do 7 (destruct j as [|j]; [vm_compute; lia|]); lia|]). lia.
  - intros w Hw. exists (Z.to_nat (wN w)), 0. rewrite Nat.mul_1_r. split_and!; [reflexivity| |by left|by intros ?].
    cbn in Hw. rewrite !elem_of_cons, elem_of_nil in Hw. naive_solver lia.
Qed.
Example ex_C73_looped_outside : ~ computes (opt19 12 true 1 5 6 "looped" 16 10000) 1 Looped.
Proof. intros (_&_&[k Hk]&_). cbn in Hk. lia. Qed.
Example ex_C73_combined_outside : ~ computes (opt19 12 false 2 5 6 "combined" 16 10000) 1 Combined.
Proof. intros Hc. discriminate Hc. Qed.
Example ex_C73_kernel_tiled_outside : ~ computes (opt19 12 true 1 5 6 "kernel_tiled" 16 10000) 1 KernelTiled.
Proof. intros [_ [Hc|Hc]]; discriminate Hc. Qed.
Example ex_C73_no_luck : ~ forall A B : list Z, length A = 12 * 12 -> length B = 12 * 12 ->
  exists C, may_return (computation (opt19 12 true 1 5 6 "kernel_tiled" 16 10000) 1 KernelTiled A B) C /\ is_matrix 12 (pentry true 12 A B) C.
Proof.
  intros Hall. apply ex_C73_kernel_tiled_outside.
  apply (C73_no_lucky_schedule (opt19 12 true 1 5 6 "kernel_tiled" 16 10000) 1 KernelTiled); [cbn; lia|exact I|intros Hv; discriminate Hv|exact Hall].
Qed.
