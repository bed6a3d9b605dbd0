(** C51, C59-C62: the experiment kernels with plain loops. *)
From Verif Require Import Conc ConcFacts SpecExp Tools MExp PUtil PTiled5 PExp PExpBlocks.

Section Properties13.
  Context {T : Type} `{NumOps T}.

  (** C51: multBlocked2, even n: the product with the transposed second matrix. *)
  Theorem C51_blocked2_even n (A B C : list T) :
    n * n <= length A -> n * n <= length B -> length C = n * n -> (2 | n) ->
    always (multBlocked2 A B C n) (is_product_t n A B).
  Proof. exact (multBlocked2_correct n A B C). Qed.

  (** C51: odd n: out of bounds, unless A has a complete extra row. *)
  Theorem C51_blocked2_odd n (A B C : list T) :
    ~ (2 | n) -> length A < n * n + n -> always_ub (multBlocked2 A B C n).
  Proof. exact (multBlocked2_odd n A B C). Qed.

  (** C51: multBlocked4 adds only every fourth product. *)
  Theorem C51_blocked4_entries n (A B C : list T) :
    n * n <= length A -> n * n <= length B -> length C = n * n -> (4 | n) ->
    always (multBlocked4 A B C n) (is_matrix n (every4_entry n A B)).
  Proof. exact (multBlocked4_entries n A B C). Qed.

  Theorem C51_blocked4_other_sizes n (A B C : list T) :
    ~ (4 | n) -> length A <= n * n + (n - 4) -> always_ub (multBlocked4 A B C n).
  Proof. exact (multBlocked4_other n A B C). Qed.

  (** C51: with the identity (which the benchmark passes) three of four columns
      of the result are zero. *)
  Theorem C51_blocked4_identity `{!UnitLaws T} n (A B C : list T) :
    n * n <= length A -> is_identity n B -> length C = n * n -> (4 | n) ->
    always (multBlocked4 A B C n)
      (is_matrix n (fun i j => if decide (j mod 4 = 0) then ent n A i j else nzero)).
  Proof.
    intros HA HB HC H4. eapply must_mono; [|apply multBlocked4_entries; [exact HA|destruct HB; lia|exact HC|exact H4]].
    intros R ? HR. eapply is_matrix_ext; [|exact HR]. intros i j Hi Hj. exact (every4_identity n A B i j HB H4 Hi Hj).
  Qed.

  (** C51: so multBlocked4 is wrong for every n >= 4 for which it does not leave
      the arrays, whenever A has a non-zero entry outside the columns 0, 4, 8, ... *)
  Theorem C51_blocked4_product_refuted `{!UnitLaws T} n (A B C : list T) i j :
    length A = n * n -> is_identity n B -> length C = n * n -> (4 | n) ->
    i < n -> j < n -> j mod 4 <> 0 -> ent n A i j <> nzero ->
    always (multBlocked4 A B C n) (fun R => ~ is_product_t n A B R).
  Proof.
    intros HA HB HC H4 Hi Hj Hm Hne.
    eapply must_mono; [|apply C51_blocked4_identity; [lia|exact HB|exact HC|exact H4]].
    intros R ? HR HP. apply Hne. apply (is_matrix_ent _ _ _ i j) in HR, HP; try done.
    rewrite HR in HP. rewrite decide_False in HP by done. rewrite HP.
    rewrite <- (identity_product n A B i j HA HB Hi Hj). apply dot_ext. intros k Hk%elem_of_seq. f_equal.
    apply (identity_symmetric n B k j HB); lia.
  Qed.

  (** C59: multNaive and multTransposed add to the old contents of C. *)
  Theorem C59_naive n (A B C : list T) :
    n * n <= length A -> n * n <= length B -> length C = n * n ->
    always (multNaive A B C n) (is_matrix n (acc_entry n A B C)).
  Proof. exact (multNaive_correct n A B C). Qed.
  Theorem C59_transposed n (A B C : list T) :
    n * n <= length A -> n * n <= length B -> length C = n * n ->
    always (multTransposed A B C n) (is_matrix n (acc_t_entry n A B C)).
  Proof. exact (multTransposed_correct n A B C). Qed.
  (** C59: hence they give the product if and, in exact arithmetic with
      cancellation, only if C was zero. *)
  Theorem C59_naive_zeroed n (A B C : list T) :
    n * n <= length A -> n * n <= length B -> is_zero n C ->
    always (multNaive A B C n) (is_product n A B) /\
    always (multTransposed A B C n) (is_product_t n A B).
  Proof.
    intros HA HB HC. assert (length C = n * n) as Hl by apply HC. split.
    - eapply must_mono; [|apply multNaive_correct; [exact HA|exact HB|exact Hl]].
      intros R ? HR. eapply is_matrix_ext; [|exact HR]. intros i j Hi Hj. unfold acc_entry.
      by rewrite (is_matrix_ent _ _ _ i j HC Hi Hj).
    - eapply must_mono; [|apply multTransposed_correct; [exact HA|exact HB|exact Hl]].
      intros R ? HR. eapply is_matrix_ext; [|exact HR]. intros i j Hi Hj. unfold acc_t_entry.
      by rewrite (is_matrix_ent _ _ _ i j HC Hi Hj).
  Qed.
  Theorem C59_nonzero_refuted `{!Exact T} n (A B C : list T) i j :
    (forall x y : T, nadd x y = y -> x = nzero) ->
    n * n <= length A -> n * n <= length B -> length C = n * n -> i < n -> j < n -> ent n C i j <> nzero ->
    always (multNaive A B C n) (fun R => ~ is_product n A B R) /\
    always (multTransposed A B C n) (fun R => ~ is_product_t n A B R).
  Proof.
    intros Hcancel HA HB HC Hi Hj Hne. split.
    - eapply must_mono; [|apply multNaive_correct; [exact HA|exact HB|exact HC]].
      intros R ? HR HP. apply Hne, (Hcancel _ (prod_entry n A B i j)).
      rewrite <- (is_matrix_ent _ _ _ i j HP Hi Hj) at 2. rewrite (is_matrix_ent _ _ _ i j HR Hi Hj).
      unfold acc_entry. by rewrite foldl_nadd_shift.
    - eapply must_mono; [|apply multTransposed_correct; [exact HA|exact HB|exact HC]].
      intros R ? HR HP. apply Hne, (Hcancel _ (prod_t_entry n A B i j)).
      rewrite <- (is_matrix_ent _ _ _ i j HP Hi Hj) at 2. rewrite (is_matrix_ent _ _ _ i j HR Hi Hj).
      unfold acc_t_entry. by rewrite foldl_nadd_shift.
  Qed.

  (** C60: multCounter overwrites C. *)
  Theorem C60_counter n (A B C : list T) :
    n * n <= length A -> n * n <= length B -> length C = n * n ->
    always (multCounter A B C n) (is_product_t n A B).
  Proof. exact (multCounter_correct n A B C). Qed.

  (** C61: multGPU for all block sizes; [junk] is the initial value of the local
      arrays. *)
  Theorem C61_gpu b kc junk n (A B C : list T) :
    0 < b -> 0 < kc -> (b | n) -> (kc | n) -> (4 | kc) ->
    n * n <= length A -> n * n <= length B -> length C = n * n ->
    always (multGPU_with b kc junk A B C n) (is_matrix n (lanes_entry kc n A B)).
  Proof. exact (multGPU_correct b kc junk A B C n). Qed.
  Theorem C61_gpu_exact `{!Exact T} b kc junk n (A B C : list T) :
    0 < b -> 0 < kc -> (b | n) -> (kc | n) -> (4 | kc) ->
    n * n <= length A -> n * n <= length B -> length C = n * n ->
    always (multGPU_with b kc junk A B C n) (is_product_t n A B).
  Proof.
    intros Hb Hk Hbn Hkn H4 HA HB HC. eapply must_mono; [|exact (multGPU_correct b kc junk A B C n Hb Hk Hbn Hkn H4 HA HB HC)].
    intros R ? HR. eapply is_matrix_ext; [|exact HR]. intros i j _ _. exact (dot_lanes_exact kc _ n Hk H4 Hkn).
  Qed.
  Theorem C61_gpu_other_sizes b kc junk n (A B C : list T) :
    0 < b -> 0 < kc -> ~ (b | n) -> length A < n * n + n -> always_ub (multGPU_with b kc junk A B C n).
  Proof. exact (multGPU_other b kc junk A B C n). Qed.
  (** The shipped macro values. *)
  Theorem C61_gpu_shipped junk n (A B C : list T) :
    (128 | n) -> n * n <= length A -> n * n <= length B -> length C = n * n ->
    always (multGPU junk A B C n) (is_matrix n (lanes_entry 128 n A B)).
  Proof.
    intros Hn. apply C61_gpu; [apply Nat.ltb_lt; reflexivity|apply Nat.ltb_lt; reflexivity|exact Hn|exact Hn|by exists 32].
  Qed.

  (** C62: multExchanged keeps the straight order of summation. *)
  Theorem C62_exchanged bx by_ kc junk n (A B C : list T) :
    0 < bx -> 0 < by_ -> 0 < kc -> (bx | n) -> (by_ | n) -> (kc | n) -> (4 | bx) -> (4 | by_) -> (4 | kc) ->
    n * n <= length A -> n * n <= length B -> length C = n * n ->
    always (multExchanged_with bx by_ kc junk A B C n) (is_product n A B).
  Proof. exact (multExchanged_correct bx by_ kc junk A B C n). Qed.
  Theorem C62_exchanged_other_sizes bx by_ kc junk n (A B C : list T) :
    0 < bx -> 0 < by_ -> 0 < kc -> ~ (bx | n) -> length A < n * n + n ->
    always_ub (multExchanged_with bx by_ kc junk A B C n).
  Proof. exact (multExchanged_other bx by_ kc junk A B C n). Qed.
  Theorem C62_exchanged_shipped junk n (A B C : list T) :
    (128 | n) -> n * n <= length A -> n * n <= length B -> length C = n * n ->
    always (multExchanged junk A B C n) (is_product n A B).
  Proof.
    intros Hn. apply C62_exchanged; try exact Hn; try (by exists 32); apply Nat.ltb_lt; reflexivity.
  Qed.
End Properties13.
Print Assumptions C51_blocked2_even.
Print Assumptions C51_blocked2_odd.
Print Assumptions C51_blocked4_entries.
Print Assumptions C51_blocked4_other_sizes.
Print Assumptions C51_blocked4_identity.
Print Assumptions C51_blocked4_product_refuted.
Print Assumptions C59_naive.
Print Assumptions C59_transposed.
Print Assumptions C59_naive_zeroed.
Print Assumptions C59_nonzero_refuted.
Print Assumptions C60_counter.
Print Assumptions C61_gpu.
Print Assumptions C61_gpu_exact.
Print Assumptions C61_gpu_other_sizes.
Print Assumptions C61_gpu_shipped.
Print Assumptions C62_exchanged.
Print Assumptions C62_exchanged_other_sizes.
Print Assumptions C62_exchanged_shipped.
