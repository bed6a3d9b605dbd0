(** kernel_test: the theorems about whole runs. *)
From Verif Require Import Conc ConcFacts LoopFacts Tools Tools2 Spec SpecTiled MTiled MKTest PTiled PTiled2 PTiled5 PLevels PKTest PDet PIter PPseudo.

Section KT2.
  Context {T : Type} `{NumOps T} (b : blocks) (Hpos : all_positive b) (Hdiv : levels_divide b) (H8 : (8 | L1_Y b)).
  Lemma kt_always P N (A B : list T) transposed reps : length A = N * N -> length B = N * N -> kt_fits b P N -> 0 < reps ->
    always (kernel_test_matrix_multiply b P N A B transposed reps) (is_matrix N (tiled_entry b N A B)).
  Proof.
    intros HA HB (F1&F2&F3&F4) Hr. destruct (kt_run b Hpos Hdiv H8 P N A B transposed reps HA HB F1 F2 F3 F4) as (Hd&C&m&Hrun&HC).
    eapply always_intro; [exact Hd|exact Hrun|]. by destruct reps; [lia|].
  Qed.
  Lemma tiled_entry_exact' `{!Exact T} N (A B : list T) i j : i < N -> j < N -> tiled_entry b N A B i j = prod_entry N A B i j.
  Proof.
    intros Hi Hj. unfold tiled_entry. destruct Hpos as ((_&_&P3)&_&(_&_&P9)). destruct Hdiv as ((_&_&D3)&(_&_&D6)).
    assert (D : (L1_K b | SpecTiled.round_up N (L3_K b))) by (apply Nat.divide_mul_r; exact (Nat.divide_trans _ _ _ D3 D6)).
    rewrite dot_chunks_exact by assumption. by apply padded_dot.
  Qed.
  Lemma kt_exact `{!Exact T} P N (A B : list T) transposed reps : length A = N * N -> length B = N * N -> kt_fits b P N -> 0 < reps ->
    always (kernel_test_matrix_multiply b P N A B transposed reps) (is_product N A B).
  Proof.
    intros HA HB HF Hr. eapply must_impl; [|exact (kt_always P N A B transposed reps HA HB HF Hr)]. intros C. apply is_matrix_ext. intros. by apply tiled_entry_exact'.
  Qed.
  Lemma kt_disagrees `{!Exact T, !UnitLaws T} P N : kt_fits b P N -> 2 <= N -> (none1 : T) <> nzero ->
    exists A B : list T, length A = N * N /\ length B = N * N /\ forall reps, 0 < reps ->
      always (kernel_test_matrix_multiply b P N A B true reps) (fun C => is_product N A B C /\ ~ is_product_t N A B C).
  Proof.
    intros HF HN H10.
    destruct (is_matrix_exists N (fun i j => if decide (i = 0 /\ j = 0) then none1 else nzero : T)) as [A HA].
    destruct (is_matrix_exists N (fun i j => if decide (i = 0 /\ j = 1) then none1 else nzero : T)) as [B HB].
    pose proof (proj1 HA) as LA. pose proof (proj1 HB) as LB. exists A, B. split; [exact LA|]. split; [exact LB|]. intros reps Hr.
    eapply must_impl; [|apply kt_exact; [exact LA|exact LB|exact HF|exact Hr]].
    intros C HC. split; [exact HC|]. by apply (transposed_differs N A B C HN H10).
  Qed.
End KT2.

(** The shipped constants. *)
Lemma kt_shipped_pos : all_positive kt_shipped.
Proof. unfold all_positive, kt_shipped. cbn [L3_X L3_Y L3_K L2_X L2_Y L2_K L1_X L1_Y L1_K]. lia. Qed.
Lemma kt_shipped_div : levels_divide kt_shipped.
Proof.
  unfold levels_divide, kt_shipped. cbn [L3_X L3_Y L3_K L2_X L2_Y L2_K L1_X L1_Y L1_K].
  split; [split; [exists 2|split; [exists 4|exists 4]]; reflexivity|split; [exists 2|split; [exists 2|exists 8]]; reflexivity].
Qed.
Lemma kt_shipped_8 : (8 | L1_Y kt_shipped).
Proof. exists 4. reflexivity. Qed.
Lemma div4_64 N : (4 | N + kt_padding) <-> (4 | N).
Proof.
  split.
  - intros Hd. apply (Nat.divide_add_cancel_r 4 kt_padding N); [exists 16; reflexivity|]. rewrite Nat.add_comm. exact Hd.
  - intros Hd. apply Nat.divide_add_r; [exact Hd|exists 16; reflexivity].
Qed.
Lemma round_up_256 N : SpecTiled.round_up N 256 <= SpecTiled.round_up N 512.
Proof.
  unfold SpecTiled.round_up, cdiv.
  pose proof (Nat.div_mod (N + (256 - 1)) 256 ltac:(lia)). pose proof (Nat.mod_upper_bound (N + (256 - 1)) 256 ltac:(lia)).
  pose proof (Nat.div_mod (N + (512 - 1)) 512 ltac:(lia)). pose proof (Nat.mod_upper_bound (N + (512 - 1)) 512 ltac:(lia)). lia.
Qed.
Lemma kt_shipped_fits N : (4 | N) -> SpecTiled.round_up N 512 <= N + 63 -> kt_fits kt_shipped kt_padding N.
Proof.
  intros H4 HR. pose proof (round_up_256 N). unfold kt_fits. cbn [L3_X L3_Y L3_K kt_shipped].
  split; [apply div4_64; exact H4|]. unfold kt_padding. lia.
Qed.
Section Shipped.
  Context {T : Type} `{NumOps T}.
  Notation kt := (kernel_test_matrix_multiply kt_shipped kt_padding).
  Lemma kts_order N (A B : list T) transposed reps : length A = N * N -> length B = N * N -> (4 | N) -> SpecTiled.round_up N 512 <= N + 63 -> 0 < reps ->
    always (kt N A B transposed reps) (is_matrix N (tiled_entry kt_shipped N A B)).
  Proof. intros HA HB H4 HR Hr. apply kt_always; [exact kt_shipped_pos|exact kt_shipped_div|exact kt_shipped_8|exact HA|exact HB|exact (kt_shipped_fits N H4 HR)|exact Hr]. Qed.
  Lemma kts_exact `{!Exact T} N (A B : list T) transposed reps : length A = N * N -> length B = N * N -> (4 | N) -> SpecTiled.round_up N 512 <= N + 63 -> 0 < reps ->
    always (kt N A B transposed reps) (is_product N A B).
  Proof. intros HA HB H4 HR Hr. apply kt_exact; [exact kt_shipped_pos|exact kt_shipped_div|exact kt_shipped_8|exact _|exact HA|exact HB|exact (kt_shipped_fits N H4 HR)|exact Hr]. Qed.
  Lemma kts_oob N (A B : list T) transposed reps : length A = N * N -> length B = N * N -> 0 < N -> (4 | N) -> N + 63 < SpecTiled.round_up N 512 -> 0 < reps ->
    must_fail (fun e => e = EOob) (kt N A B transposed reps) ∅.
  Proof.
    intros HA HB HN H4 HR Hr. apply kt_oob; [exact kt_shipped_pos|exact kt_shipped_div|exact kt_shipped_8|exact HA|exact HB|exact HN|exact Hr| |].
    - apply div4_64; exact H4.
    - cbn [L3_K kt_shipped]. unfold kt_padding. lia.
  Qed.
  Lemma kts_misaligned N (A B : list T) transposed reps : length A = N * N -> length B = N * N -> 0 < N -> ~ (4 | N) -> 0 < reps ->
    must_fail (fun e => e = EMisaligned) (kt N A B transposed reps) ∅.
  Proof.
    intros HA HB HN H4 Hr. apply kt_misaligned; [exact kt_shipped_pos|exact kt_shipped_div|exact kt_shipped_8|exact HA|exact HB|exact HN|exact Hr| |].
    - unfold kt_padding. lia.
    - intros Hd. apply H4. apply div4_64; exact Hd.
  Qed.
  Lemma kts_zero N (A B : list T) transposed : length A = N * N -> length B = N * N -> always (kt N A B transposed 0) (is_zero N).
  Proof. intros HA HB. apply kt_run_zero; [exact kt_shipped_pos|exact HA|exact HB]. Qed.
End Shipped.
