(** Every variant is deterministic; the naive kernels on short inputs. *)
From Verif Require Import Conc ConcFacts LoopFacts Tools Tools2 Spec SpecTiled MNaive MVariants MTiled MKTest PNaive PRecursive PPseudo
  PAlgorithms PLooped PSemi PTiled PTiled2 PTiled4 PTiled5 PLevels PKTest PKTest2 PDet MRecursive MSchedule MIter.

Section Det.
  Context {T : Type} `{NumOps T}.
  Lemma must_fail_weaken {A : Type} (E : err -> Prop) (p : prog T A) m : must_fail E p m -> must_fail (fun _ => True) p m.
  Proof. induction 1; [by constructor|by constructor]. Qed.
  Lemma det_fail {A : Type} (E : err -> Prop) (p : prog T A) : must_fail E p ∅ -> deterministic p.
  Proof. intros Hf. right. by eapply must_fail_weaken. Qed.
  Lemma det_matrix N f (p : prog T (list T)) : always p (is_matrix N f) -> deterministic p.
  Proof.
    intros Hp. left. destruct (is_matrix_exists N f) as [C HC]. exists C.
    eapply must_impl; [|exact Hp]. intros C' HC'. by eapply is_matrix_unique.
  Qed.

  (** naive.hpp *)
  Section Naive.
    Context (N : nat) (inner : nat -> nat -> prog T T) (Hs : forall i j, simple (inner i j)).
    Lemma naive_gen_drf' : drf (naive_gen N inner).
    Proof.
      apply drf_bind; [apply drf_valloc|intros _].
      apply drf_bind; [|intros _; apply drf_vread].
      apply (drf_parL _ _ (fun _ _ => False) (fun i l => exists j, j < N /\ l = (idC, i * N + j))).
      - by apply NoDup_rng; lia.
      - intros i Hi. apply drf_pcatch; [done|]. apply drf_forS. intros j [] Hj _. apply drf_bind; [apply simple_drf, Hs|]. intros r. apply drf_wr_at.
      - intros i Hi. apply acc_in_pcatch; [done|]. apply acc_in_forS. intros j [] Hj _. apply acc_in_bind; [apply simple_acc, Hs|]. intros r.
        apply acc_in_wr_at. exists j. split; [lia|done].
      - intros i i' l Hi Hi' Hne (j&Hj&->) [[]|(j'&Hj'&[= He])]. apply mixed_inj in He; [|done..]. lia.
    Qed.
    (** A failing element access ends the program. *)
    Lemma errD_catch {A : Type} (p : prog T A) : errD (fun e => e = EOutOfRange) p -> nopar p ->
      errD (fun e => e = ETerminate) (pcatch EOutOfRange (Err ETerminate) p).
    Proof.
      induction p as [A a|A e|A l k IH|A l v k IH|A l v k IH|A p IHp q IHq k IHk]; simpl; intros He Hn; try naive_solver.
    Qed.
    Lemma failD_catch {A : Type} (p : prog T A) : failD (fun e => e = EOutOfRange) p -> nopar p ->
      failD (fun e => e = ETerminate) (pcatch EOutOfRange (Err ETerminate) p).
    Proof.
      induction p as [A a|A e|A l k IH|A l v k IH|A l v k IH|A p IHp q IHq k IHk]; simpl; intros He Hn; try naive_solver.
    Qed.
    Lemma naive_gen_short i0 j0 : i0 < N -> j0 < N -> (forall i j, errD (fun e => e = EOutOfRange) (inner i j)) ->
      inner i0 j0 = Err EOutOfRange -> must_fail (fun e => e = ETerminate) (naive_gen N inner) ∅.
    Proof.
      intros Hi0 Hj0 He H0. unfold naive_gen. destruct (run_valloc idC (N * N) (nzero : T) ∅) as (m1&Hr1&_&_).
      assert (Hm1 : datm m1).
      { pose proof (run_errD (fun _ => True) (valloc idC (N * N) (nzero : T)) ∅ (errD_valloc _ _ _ _) datm_empty) as Hd. by rewrite Hr1 in Hd. }
      apply (must_fail_after _ _ _ _ tt m1); [apply nopar_valloc|exact Hr1|]. apply must_fail_bind. apply failD_must_fail; [|exact Hm1].
      assert (Hn : forall i, nopar (forP 0 N 1 (fun j => let! r := inner i j in wr_at idC (i * N + j) r))).
      { intros i. apply nopar_forS. intros j _. apply nopar_bind; [apply simple_nopar, Hs|]. intros r. by intros []. }
      assert (Hj : forall i j, errD (fun e => e = EOutOfRange) (let! r := inner i j in wr_at idC (i * N + j) r)).
      { intros i j. apply errD_bind; [apply He|]. intros r. simpl. split; [done|]. by intros []. }
      apply (failD_parL _ _ _ i0).
      - rewrite rng_1. apply elem_of_seq. lia.
      - intros i _. apply errD_catch; [|apply Hn]. apply errD_forP; [lia|]. intros j _. apply Hj.
      - apply failD_catch; [|apply Hn]. apply (failD_forP _ _ _ _ _ j0); [lia|rewrite rng_1; apply elem_of_seq; lia| |].
        + intros j _. apply Hj.
        + rewrite H0. done.
    Qed.
  End Naive.

  Notation sum_ab N A B ia ib := (forS 0 N 1 (fun k acc => let! a := vat A (ia k) in let! b := vat B (ib k) in Ret (nadd acc (nmul a b))) nzero).
  Lemma sum_simple N (A B : list T) ia ib : simple (sum_ab N A B ia ib).
  Proof. apply simple_forS. intros k acc. do 2 (apply simple_bind; [apply simple_vat|]; intros ?). apply simple_ret. Qed.
  Lemma sum_errD N (A B : list T) ia ib : errD (fun e => e = EOutOfRange) (sum_ab N A B ia ib).
  Proof.
    apply errD_forS; [left; lia|]. intros k acc _. apply errD_bind; [unfold vat; by case_match|]. intros a.
    apply errD_bind; [unfold vat; by case_match|]. done.
  Qed.
  Lemma sum_short N (A B : list T) ia ib k0 : k0 < N -> length A <= ia k0 \/ length B <= ib k0 -> sum_ab N A B ia ib = Err EOutOfRange.
  Proof.
    intros Hk Hl. assert (failD (fun e => e = EOutOfRange) (sum_ab N A B ia ib)) as Hf.
    - rewrite forS_step by lia. apply (failD_foldP _ _ _ _ k0).
      + rewrite rng_1. apply elem_of_seq. lia.
      + intros k acc _. apply errD_bind; [unfold vat; by case_match|]. intros a. apply errD_bind; [unfold vat; by case_match|]. done.
      + intros acc. destruct Hl as [Hl|Hl].
        * assert (vat A (ia k0) = Err EOutOfRange) as -> by (unfold vat; by rewrite lookup_ge_None_2). done.
        * apply failD_bind_r; [unfold vat; by case_match|]. intros a. assert (vat B (ib k0) = Err EOutOfRange) as -> by (unfold vat; by rewrite lookup_ge_None_2). done.
    - destruct (sum_simple N A B ia ib) as [[a Ha]|[e He]]; [by rewrite Ha in Hf|]. rewrite He in Hf. simpl in Hf. by subst e.
  Qed.
  Lemma naive_det N (A B : list T) : deterministic (naive_matrix_multiply N A B).
  Proof. apply drf_deterministic. apply (naive_gen_drf' N (fun i j => sum_ab N A B (fun k => i * N + k) (fun k => k * N + j))). intros i j. apply sum_simple. Qed.
  Lemma naive_t_det N (A B : list T) : deterministic (naive_matrix_multiply_transposed N A B).
  Proof. apply drf_deterministic. apply (naive_gen_drf' N (fun i j => sum_ab N A B (fun k => i * N + k) (fun k => j * N + k))). intros i j. apply sum_simple. Qed.
  Lemma last_cell N : 0 < N -> (N - 1) * N + (N - 1) = N * N - 1.
  Proof. intros HN. destruct N as [|n]; [lia|]. simpl. nia. Qed.
  Lemma naive_short N (A B : list T) : 0 < N -> length A < N * N \/ length B < N * N ->
    must_fail (fun e => e = ETerminate) (naive_matrix_multiply N A B) ∅ /\
    must_fail (fun e => e = ETerminate) (naive_matrix_multiply_transposed N A B) ∅.
  Proof.
    intros HN Hl. pose proof (last_cell N HN). split.
    - apply (naive_gen_short N (fun i j => sum_ab N A B (fun k => i * N + k) (fun k => k * N + j)) ltac:(intros; apply sum_simple) (N - 1) (N - 1));
        [lia|lia|intros; apply sum_errD|]. apply (sum_short _ _ _ _ _ (N - 1)); lia.
    - apply (naive_gen_short N (fun i j => sum_ab N A B (fun k => i * N + k) (fun k => j * N + k)) ltac:(intros; apply sum_simple) (N - 1) (N - 1));
        [lia|lia|intros; apply sum_errD|]. apply (sum_short _ _ _ _ _ (N - 1)); lia.
  Qed.

  (** looped.hpp *)
  Lemma nopar_looped_iterate {S : Type} conf mn mx (f : list nat -> S -> prog T S) s :
    (forall p s, nopar (f p s)) -> nopar (looped_iterate conf mn mx f s).
  Proof.
    intros Hf. revert mn mx s. induction conf as [|b conf IH]; intros mn mx s; cbn [looped_iterate]; (destruct (negb _); [done|]); [done|].
    do 3 (apply nopar_bind; [apply nopar_ofres|]; intros ?). destruct conf as [|b' conf].
    - apply nopar_foldP. intros. apply Hf.
    - apply nopar_foldP. intros x s'. apply nopar_bind; [apply nopar_ofres|]. intros ?. apply IH.
  Qed.
  Lemma looped_det N (A B : list T) br bi : deterministic (looped_matrix_multiply N A B br bi).
  Proof.
    apply drf_deterministic, nopar_drf, nopar_looped_iterate. intros p C.
    do 3 (apply nopar_bind; [apply nopar_ofres|]; intros ?). do 2 (apply nopar_bind; [apply simple_nopar, simple_vget|]; intros ?).
    unfold vadd. apply nopar_bind; [apply simple_nopar, simple_vget|]. intros ?. apply simple_nopar, simple_vset.
  Qed.
  Lemma algorithms_det N (A B : list T) bi br : length A = N * N -> length B = N * N -> deterministic (algorithms_matrix_multiply N A B bi br).
  Proof.
    intros HA HB. destruct (Nat.eq_dec br 0) as [->|Hbr].
    - apply (det_fail (fun e => e = EDivZero)). apply alg_zero_result.
    - destruct (Nat.eq_dec N 0) as [->|HN]; [|apply drf_deterministic, alg_drf; [done|done|lia|lia]].
      clear HA HB. left. exists []. unfold algorithms_matrix_multiply. destruct (Nat.eqb_spec br 0); [lia|]. cbn [Nat.mul].
      rewrite Nat.mod_0_l, Nat.div_0_l by lia. cbn. by constructor.
  Qed.
  Lemma kernel_tiled_det b N (A B : list T) transposed reps : blocks_ok b -> length A = N * N -> length B = N * N ->
    deterministic (kernel_tiled_matrix_multiply b N A B transposed reps).
  Proof.
    intros Hb HA HB. destruct reps as [|r].
    - exact (det_matrix N _ _ (kernel_tiled_zero b N A B transposed Hb HA HB)).
    - apply (det_matrix N (tiled_entry b N A B)). apply (kernel_tiled_always b N A B transposed (S r) Hb HA HB). lia.
  Qed.
  Lemma kernel_test_det N (A B : list T) transposed reps : length A = N * N -> length B = N * N ->
    deterministic (kernel_test_matrix_multiply kt_shipped kt_padding N A B transposed reps).
  Proof.
    intros HA HB. destruct reps as [|r]; [exact (det_matrix N _ _ (kts_zero N A B transposed HA HB))|].
    assert (Hr : 0 < S r) by lia. revert Hr. generalize (S r) as reps. intros reps Hr.
    destruct (Nat.eq_dec N 0) as [->|HN].
    - apply (det_matrix 0 (tiled_entry kt_shipped 0 A B)). apply (kts_order 0 A B transposed reps HA HB); [exists 0; reflexivity|vm_compute; lia|exact Hr].
    - assert (HN' : 0 < N) by lia. destruct (Nat.eq_dec (N mod 4) 0) as [E|E].
      + assert (H4 : (4 | N)) by (apply Nat.mod_divide; [lia|exact E]).
        destruct (Nat.le_gt_cases (SpecTiled.round_up N 512) (N + 63)) as [Hle|Hgt].
        * exact (det_matrix N _ _ (kts_order N A B transposed reps HA HB H4 Hle Hr)).
        * exact (det_fail _ _ (kts_oob N A B transposed reps HA HB HN' H4 Hgt Hr)).
      + assert (H4 : ~ (4 | N)) by (intros Hd; apply E, Nat.mod_divide; [lia|exact Hd]).
        exact (det_fail _ _ (kts_misaligned N A B transposed reps HA HB HN' H4 Hr)).
  Qed.
  Lemma combined_det b N (A B : list T) reps : blocks_ok b -> length A = N * N -> length B = N * N ->
    exists C, always_tol (fun l => l = idFirst) (combined_matrix_multiply b N A B reps) (fun C' => C' = C).
  Proof.
    intros Hb HA HB. destruct (is_matrix_exists N (tiled_entry_rep b reps N A B)) as [C HC]. exists C.
    eapply must_impl; [|exact (combined_always b N A B reps Hb HA HB)]. intros C' HC'. by eapply is_matrix_unique.
  Qed.
End Det.
