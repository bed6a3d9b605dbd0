(** Proofs about src/reference_kernels/naive.hpp. *)
From Verif Require Import Tools MNaive.

Section PNaive.
  Context {T : Type} `{NumOps T}.

  (** Common shape of the two kernels. *)
  Definition row_gen (N : nat) (inner : nat -> nat -> prog T T) (i : nat) : prog T unit :=
    pcatch EOutOfRange (Err ETerminate)
      (forP 0 N 1 (fun j => let! r := inner i j in wr_at idC (i * N + j) r)).
  Definition naive_gen (N : nat) (inner : nat -> nat -> prog T T) : prog T (list T) :=
    valloc idC (N * N) nzero ;;; parL (rng 0 N 1) (row_gen N inner) ;;; vread idC (N * N).

  Section Gen.
    Context (N : nat) (inner : nat -> nat -> prog T T) (f : nat -> nat -> T).
    Context (Hinner : forall i j, i < N -> j < N -> inner i j = Ret (f i j)).

    Definition row_us (i : nat) : list (loc * (T -> T)) :=
      seq 0 N ≫= fun j => [((idC, i * N + j), fun _ => f i j)].

    Lemma row_does i : i < N -> does (row_gen N inner i) (row_us i).
    Proof.
      intros Hi. apply does_pcatch. unfold row_us.
      replace (seq 0 N) with (rng 0 N 1) by (by rewrite rng_1, Nat.sub_0_r).
      apply does_forP; [lia|]. intros j Hj. apply rng_bounds in Hj.
      rewrite Hinner by lia. simpl pbind. apply does_wr_at.
    Qed.

    Lemma row_acc i : i < N ->
      acc_in (fun _ => False) (fun l => exists j, j < N /\ l = (idC, i * N + j)) (row_gen N inner i).
    Proof.
      intros Hi. apply acc_in_pcatch; [done|]. apply acc_in_forS.
      intros j [] Hj _. rewrite Hinner by lia. simpl pbind. apply acc_in_wr_at. exists j. split; [lia|done].
    Qed.
    Lemma row_drf i : i < N -> drf (row_gen N inner i).
    Proof.
      intros Hi. apply drf_pcatch; [done|]. apply drf_forS.
      intros j [] Hj _. rewrite Hinner by lia. simpl pbind. apply drf_wr_at.
    Qed.

    Lemma contrib_rows i j : i < N -> j < N ->
      contrib (idC, i * N + j) (seq 0 N ≫= row_us) = [fun _ => f i j].
    Proof.
      intros Hi Hj. rewrite contrib_bind.
      rewrite (bind_select _ _ i).
      - unfold row_us. rewrite contrib_bind. rewrite (bind_select _ _ j).
        + by rewrite contrib_single_eq.
        + apply NoDup_seq.
        + apply elem_of_seq. lia.
        + intros j' Hj' Hne. apply elem_of_seq in Hj'. apply contrib_single_ne.
          intros [= He]. lia.
      - apply NoDup_seq.
      - apply elem_of_seq. lia.
      - intros i' Hi' Hne. apply elem_of_seq in Hi'. apply contrib_none.
        intros u (j'&Hu&Hj')%elem_of_list_bind. apply elem_of_list_singleton in Hu as ->.
        apply elem_of_seq in Hj'. simpl. intros [= He]. apply mixed_inj in He; lia.
    Qed.

    Lemma naive_gen_drf : drf (naive_gen N inner).
    Proof.
      apply drf_bind; [apply drf_valloc|intros _].
      apply drf_bind; [|intros _; apply drf_vread].
      apply (drf_parL _ _ (fun _ _ => False) (fun i l => exists j, j < N /\ l = (idC, i * N + j))).
      - by apply NoDup_rng; lia.
      - intros i Hi. apply rng_bounds in Hi. apply row_drf. lia.
      - intros i Hi. apply rng_bounds in Hi. apply row_acc. lia.
      - intros i i' l Hi Hi' Hne (j&Hj&->) [[]|(j'&Hj'&[= He])].
        apply mixed_inj in He; [|done..]. lia.
    Qed.

    Lemma naive_gen_run : exists C m, run (naive_gen N inner) ∅ = Ok (C, m) /\ is_matrix N f C.
    Proof.
      destruct (run_alloc_does idC (N * N) (nzero : T) (parL (rng 0 N 1) (row_gen N inner)) (seq 0 N ≫= row_us) ∅) as [m Hm].
      - replace (seq 0 N) with (rng 0 N 1) by (by rewrite rng_1, Nat.sub_0_r).
        apply does_parL. intros i Hi. apply rng_bounds in Hi. apply row_does. lia.
      - intros u (i&Hu&Hi)%elem_of_list_bind. apply elem_of_seq in Hi.
        apply elem_of_list_bind in Hu as (j&Hu&Hj). apply elem_of_list_singleton in Hu as ->.
        apply elem_of_seq in Hj. exists (i * N + j). split; [done|]. apply mixed_lt; lia.
      - eexists _, m. split; [exact Hm|]. split.
        + by rewrite fmap_length, seq_length.
        + intros i j Hi Hj. rewrite list_lookup_fmap, lookup_seq_lt by (by apply mixed_lt).
          simpl. by rewrite contrib_rows.
    Qed.

    Lemma naive_gen_correct : always (naive_gen N inner) (is_matrix N f).
    Proof.
      destruct naive_gen_run as (C&m&Hr&HC). eapply always_intro; [apply naive_gen_drf|exact Hr|exact HC].
    Qed.
  End Gen.

  Lemma naive_correct N A B : length A = N * N -> length B = N * N ->
    always (naive_matrix_multiply N A B) (is_product N A B).
  Proof.
    intros HA HB. refine (naive_gen_correct N (fun i j => forS 0 N 1 (fun k acc =>
             let! a := vat A (i * N + k) in
             let! b := vat B (k * N + j) in
             Ret (nadd acc (nmul a b))) nzero) _ _).
    intros i j Hi Hj. apply forS1_dot. intros k acc Hk.
    rewrite (vat_lookup A _ _ (ent_lookup_sq N A i k HA Hi Hk)). simpl.
    rewrite (vat_lookup B _ _ (ent_lookup_sq N B k j HB Hk Hj)). done.
  Qed.
  Lemma naive_transposed_correct N A B : length A = N * N -> length B = N * N ->
    always (naive_matrix_multiply_transposed N A B) (is_product_t N A B).
  Proof.
    intros HA HB. refine (naive_gen_correct N (fun i j => forS 0 N 1 (fun k acc =>
             let! a := vat A (i * N + k) in
             let! b := vat B (j * N + k) in
             Ret (nadd acc (nmul a b))) nzero) _ _).
    intros i j Hi Hj. apply forS1_dot. intros k acc Hk.
    rewrite (vat_lookup A _ _ (ent_lookup_sq N A i k HA Hi Hk)). simpl.
    rewrite (vat_lookup B _ _ (ent_lookup_sq N B j k HB Hj Hk)). done.
  Qed.
End PNaive.
