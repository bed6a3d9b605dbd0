(** Corollaries for kernel_tiled and combined: exact arithmetic, determinism,
    the unused transposed flag, the block constants. *)
From Verif Require Import Tools Tools2 MIter SpecIter PKernels PRecursive PPseudo MTiled SpecTiled PTiled PTiled2 PTiled3 PTiled4.

Section Exact5.
  Context {T : Type} `{NumOps T, !Exact T}.
  Lemma padded_dot b N (A B : list T) i j : 0 < L3_K b -> i < N -> j < N ->
    dot (fun k => nmul (pent N A i k) (pent N B k j)) (seq 0 (SpecTiled.round_up N (L3_K b))) = prod_entry N A B i j.
  Proof.
    intros Hok Hi Hj. rewrite (dot_pad_exact _ N).
    - apply dot_ext. intros k Hk%elem_of_seq. by rewrite !pent_in by lia.
    - by apply round_up_ge.
    - intros k Hk. rewrite (pent_out N A) by lia. by rewrite nmul_0_l.
  Qed.
  Lemma round_up_LK b N : blocks_ok b -> 0 < L1_K b /\ (L1_K b | SpecTiled.round_up N (L3_K b)).
  Proof.
    intros Hok. pose proof (pos1 b Hok) as (?&?&?). pose proof (div_chain b Hok) as (_&_&D). split; [done|].
    unfold SpecTiled.round_up. apply Nat.divide_mul_r. exact D.
  Qed.
  Lemma tiled_entry_exact b N (A B : list T) i j : blocks_ok b -> i < N -> j < N -> tiled_entry b N A B i j = prod_entry N A B i j.
  Proof.
    intros Hok Hi Hj. unfold tiled_entry. destruct (round_up_LK b N Hok) as [P D]. rewrite dot_chunks_exact by assumption. apply padded_dot; [apply Hok|exact Hi|exact Hj].
  Qed.
  Lemma tiled_entry_rep_exact b r N (A B : list T) i j : blocks_ok b -> i < N -> j < N ->
    tiled_entry_rep b r N A B i j = times r (prod_entry N A B i j).
  Proof.
    intros Hok Hi Hj. unfold tiled_entry_rep, times. rewrite dot_bind_exact. apply dot_ext. intros _ _. by apply tiled_entry_exact.
  Qed.
End Exact5.

Section Any5.
  Context {T : Type} `{NumOps T}.
  Lemma tiled_entry_rep_1 b N (A B : list T) i j : tiled_entry_rep b 1 N A B i j = tiled_entry b N A B i j.
  Proof. unfold tiled_entry_rep, tiled_entry, dot_chunks. cbn [seq mbind list_bind]. by rewrite app_nil_r. Qed.

  Lemma kernel_tiled_always b N (A B : list T) transposed reps : blocks_ok b -> length A = N * N -> length B = N * N -> 0 < reps ->
    always (kernel_tiled_matrix_multiply b N A B transposed reps) (is_matrix N (tiled_entry b N A B)).
  Proof.
    intros Hok HA HB Hr. destruct (kernel_tiled_run b Hok N A B HA HB transposed reps) as (Hd&C&m&HR&HC).
    destruct reps as [|r]; [lia|]. eapply always_intro; [exact Hd|exact HR|exact HC].
  Qed.
  Lemma kernel_tiled_zero b N (A B : list T) transposed : blocks_ok b -> length A = N * N -> length B = N * N ->
    always (kernel_tiled_matrix_multiply b N A B transposed 0) (is_zero N).
  Proof.
    intros Hok HA HB. destruct (kernel_tiled_run b Hok N A B HA HB transposed 0) as (Hd&C&m&HR&HC).
    eapply always_intro; [exact Hd|exact HR|exact HC].
  Qed.
  Lemma must_impl {X} (tol : loc -> Prop) (Q Q' : X -> Prop) (p : prog T X) m :
    (forall a, Q a -> Q' a) -> must tol (fun a _ => Q a) p m -> must tol (fun a _ => Q' a) p m.
  Proof. intros HQ. apply must_mono. intros a _. apply HQ. Qed.
  Lemma kernel_tiled_exact `{!Exact T} b N (A B : list T) transposed reps : blocks_ok b -> length A = N * N -> length B = N * N -> 0 < reps ->
    always (kernel_tiled_matrix_multiply b N A B transposed reps) (is_product N A B).
  Proof.
    intros Hok HA HB Hr. eapply must_impl; [|by apply kernel_tiled_always]. intros C. apply is_matrix_ext. intros. by apply tiled_entry_exact.
  Qed.
  Lemma combined_always b N (A B : list T) reps : blocks_ok b -> length A = N * N -> length B = N * N ->
    always_tol (fun l => l = idFirst) (combined_matrix_multiply b N A B reps) (is_matrix N (tiled_entry_rep b reps N A B)).
  Proof. intros Hok HA HB. by apply combined_must. Qed.
  Lemma combined_order1 b N (A B : list T) : blocks_ok b -> length A = N * N -> length B = N * N ->
    always_tol (fun l => l = idFirst) (combined_matrix_multiply b N A B 1) (is_matrix N (tiled_entry b N A B)).
  Proof.
    intros Hok HA HB. eapply must_impl; [|by apply combined_always]. intros C. apply is_matrix_ext. intros. by apply tiled_entry_rep_1.
  Qed.
  Lemma combined_exact1 `{!Exact T} b N (A B : list T) : blocks_ok b -> length A = N * N -> length B = N * N ->
    always_tol (fun l => l = idFirst) (combined_matrix_multiply b N A B 1) (is_product N A B).
  Proof.
    intros Hok HA HB. eapply must_impl; [|by apply combined_order1]. intros C. apply is_matrix_ext. intros. by apply tiled_entry_exact.
  Qed.
  Lemma combined_exact `{!Exact T} b N (A B : list T) reps : blocks_ok b -> length A = N * N -> length B = N * N ->
    always_tol (fun l => l = idFirst) (combined_matrix_multiply b N A B reps) (is_matrix N (fun i j => times reps (prod_entry N A B i j))).
  Proof.
    intros Hok HA HB. eapply must_impl; [|by apply combined_always]. intros C. apply is_matrix_ext. intros. by apply tiled_entry_rep_exact.
  Qed.
End Any5.

Section Units.
  Context {T : Type} `{NumOps T, !Exact T, !UnitLaws T}.
  Lemma ent_unit N i0 j0 (M : list T) i j : is_unit N i0 j0 M -> i < N -> j < N -> ent N M i j = if decide (i = i0 /\ j = j0) then none1 else nzero.
  Proof. intros [_ HM] Hi Hj. unfold ent. by rewrite HM. Qed.
  Lemma dot_one (f : nat -> T) N k0 : k0 < N -> (forall k, k < N -> k <> k0 -> f k = nzero) -> dot f (seq 0 N) = f k0.
  Proof.
    intros Hk Hf. assert (E : seq 0 N = seq 0 k0 ++ k0 :: seq (S k0) (N - S k0)).
    { replace N with (k0 + S (N - S k0)) at 1 by lia. rewrite seq_app. done. }
    rewrite E, dot_app_exact, dot_cons_exact, (dot_zero_exact f (seq 0 k0)), (dot_zero_exact f (seq (S k0) _)).
    - by rewrite unit_add_l, unit_add_r.
    - intros k ?%elem_of_seq. apply Hf; lia.
    - intros k ?%elem_of_seq. apply Hf; lia.
  Qed.
  Lemma prod_units N (A B : list T) k0 j0 : is_unit N 0 k0 A -> is_unit N k0 j0 B -> k0 < N -> j0 < N -> prod_entry N A B 0 j0 = none1.
  Proof.
    intros HA HB Hk Hj. unfold prod_entry. rewrite (dot_one _ N k0 Hk).
    - rewrite (ent_unit N 0 k0 A) by (done || lia). rewrite (ent_unit N k0 j0 B) by (done || lia).
      rewrite !decide_True by done. by rewrite unit_mul_1.
    - intros k Hk' Hne. rewrite (ent_unit N 0 k0 A) by (done || lia). rewrite decide_False by lia. by rewrite nmul_0_l.
  Qed.
  (** The transposed flag: A = E_00, B = E_01. *)
  Lemma transposed_differs N (A B C : list T) : 2 <= N -> (none1 : T) <> nzero -> is_unit N 0 0 A -> is_unit N 0 1 B ->
    is_product N A B C -> ~ is_product_t N A B C.
  Proof.
    intros HN H10 HA HB [_ HC] [_ HC']. specialize (HC 0 1 ltac:(lia) ltac:(lia)). specialize (HC' 0 1 ltac:(lia) ltac:(lia)).
    rewrite HC in HC'. injection HC' as HC'. rewrite (prod_units N A B 0 1) in HC' by (done || lia). apply H10. rewrite HC'.
    unfold prod_t_entry. apply dot_zero_exact. intros k Hk%elem_of_seq.
    rewrite (ent_unit N 0 1 B) by (done || lia). rewrite decide_False by lia. by rewrite nmul_0_r.
  Qed.
End Units.

Section Transposed.
  Context {T : Type} `{NumOps T}.
  Lemma symmetric_hides N (A B C : list T) : (forall i j, i < N -> j < N -> ent N B i j = ent N B j i) -> is_product N A B C <-> is_product_t N A B C.
  Proof.
    intros Hs. split; apply is_matrix_ext; intros i j Hi Hj; (apply dot_ext; intros k Hk%elem_of_seq; rewrite Hs by lia; done).
  Qed.
  Lemma identity_symmetric N (B : list T) i j : is_identity N B -> i < N -> j < N -> ent N B i j = ent N B j i.
  Proof.
    intros [_ HB] Hi Hj. unfold ent. rewrite !HB by done. simpl. destruct (decide (i = j)), (decide (j = i)); congruence.
  Qed.
End Transposed.

(** verify_blocking_setup *)
Lemma verify_spec b : all_positive b -> verify_blocking_setup b = true <-> levels_divide b.
Proof.
  intros (_&(P1&P2&P3)&(P4&P5&P6)). unfold verify_blocking_setup, levels_divide.
  assert (HM : forall a c, 0 < a -> (c mod a =? 0) = true <-> (a | c)).
  { intros a c Ha. rewrite Nat.eqb_eq. rewrite Nat.mod_divide by lia. reflexivity. }
  rewrite !andb_true_iff, !HM by assumption. tauto.
Qed.
Lemma verify_fails {T} `{NumOps T} b N (A B : list T) transposed reps : all_positive b -> ~ levels_divide b ->
  must_fail (fun e => e = ETerminate) (kernel_tiled_matrix_multiply b N A B transposed reps) ∅ /\
  must_fail (fun e => e = ETerminate) (combined_matrix_multiply b N A B reps) ∅.
Proof.
  intros Hp Hd. destruct (verify_blocking_setup b) eqn:E; [by apply verify_spec in E|].
  unfold kernel_tiled_matrix_multiply, combined_matrix_multiply. rewrite E. split; by constructor.
Qed.
Lemma shipped_ok : blocks_ok shipped.
Proof.
  unfold blocks_ok, shipped. cbn [L3_X L3_Y L3_K L2_X L2_Y L2_K L1_X L1_Y L1_K].
  split; [split; [|split]; apply Nat.ltb_lt; vm_compute; reflexivity|].
  split; [split; [exists 2|split; [exists 4|exists 2]]; reflexivity|].
  split; [split; [exists 6|split; [exists 4|exists 2]]; reflexivity|].
  split; [exists 7|exists 2]; reflexivity.
Qed.
Lemma kernel_tiled_disagrees {T} `{NumOps T, !Exact T, !UnitLaws T} b N : blocks_ok b -> 2 <= N -> (none1 : T) <> nzero ->
  exists A B : list T, length A = N * N /\ length B = N * N /\ forall reps, 0 < reps ->
    always (kernel_tiled_matrix_multiply b N A B true reps) (fun C => is_product N A B C /\ ~ is_product_t N A B C).
Proof.
  intros Hok HN H10.
  destruct (is_matrix_exists N (fun i j => if decide (i = 0 /\ j = 0) then none1 else nzero : T)) as [A HA].
  destruct (is_matrix_exists N (fun i j => if decide (i = 0 /\ j = 1) then none1 else nzero : T)) as [B HB].
  exists A, B. destruct HA as [LA HA'] eqn:EA. destruct HB as [LB HB'] eqn:EB. split; [exact LA|]. split; [exact LB|]. intros reps Hr.
  eapply must_impl; [|apply kernel_tiled_exact; [exact Hok|exact LA|exact LB|exact Hr]].
  intros C HC. split; [exact HC|]. apply (transposed_differs N A B C HN H10); [split; assumption|split; assumption|exact HC].
Qed.
Lemma combined_not_product b N r : blocks_ok b -> 1 <= N -> 2 <= r ->
  exists A B : list Z, length A = N * N /\ length B = N * N /\
    always_tol (fun l => l = idFirst) (combined_matrix_multiply b N A B r) (fun C => ~ is_product N A B C).
Proof.
  intros Hok HN Hr. destruct (is_matrix_exists N (fun i j => if decide (i = 0 /\ j = 0) then 1%Z else 0%Z)) as [A HA].
  pose proof (proj1 HA) as LA. exists A, A. split; [exact LA|]. split; [exact LA|].
  eapply must_impl; [|apply combined_exact; [exact Hok|exact LA|exact LA]].
  intros C [_ HC] [_ HC']. specialize (HC 0 0 ltac:(lia) ltac:(lia)). specialize (HC' 0 0 ltac:(lia) ltac:(lia)). rewrite HC in HC'.
  injection HC' as HC'. rewrite (prod_units N A A 0 0) in HC' by (exact HA || lia).
  assert (forall n, times n (none1 : Z) = Z.of_nat n) as Ht.
  { intros n. unfold times. induction n as [|n IH]; [done|]. rewrite seq_S, dot_snoc, IH. cbn. lia. }
  rewrite Ht in HC'. cbn in HC'. lia.
Qed.
Lemma verified_constants_fail :
  exists (b : blocks) (N : nat) (A B : list Z), all_positive b /\ verify_blocking_setup b = true /\
    length A = N * N /\ length B = N * N /\
    may_fail (kernel_tiled_matrix_multiply b N A B false 1) ∅ EOob.
Proof.
  exists (Blocks 4 8 1 4 8 1 4 8 1), 4, (replicate 16 1%Z), (replicate 16 1%Z).
  split; [unfold all_positive; cbn; lia|]. split; [reflexivity|]. split; [reflexivity|]. split; [reflexivity|].
  set (p := kernel_tiled_matrix_multiply (Blocks 4 8 1 4 8 1 4 8 1) 4 (replicate 16 1%Z) (replicate 16 1%Z) false 1).
  assert (E : match run p ∅ with Fail e => Some e | Ok _ => None end = Some EOob) by (vm_compute; reflexivity).
  pose proof (run_steps p ∅) as Hs. destruct (run p ∅) as [|e]; [discriminate E|]. injection E as E. subst e. exact Hs.
Qed.
