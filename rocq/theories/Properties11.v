(** C19 (every order), C47 and C58 for doubles, C49: rounding errors. *)
From Coq Require Import ZArith Reals Psatz.
From Flocq Require Import Core IEEE754.Binary IEEE754.Bits.
From Verif Require Import Base Conc ConcFacts Num Spec SpecTiled SpecSched SpecApp SpecRound MCeil PCeil MDouble PDouble.
From Verif Require Import PPseudo2 PApp2 PRound2 Properties10 MApp.

(** C19 without any law of arithmetic: every entry of the result is computed in
    the order of one admissible leaf, and the matrix is the same in every
    interleaving. *)
Theorem C19_pseudodynamic_any_order {T} `{NumOps T} N (A B : list T) transposed block_input block_result
    min_work_size max_difference rel localities reps :
  (Z.of_nat N * Z.of_nat N < 2 ^ 62)%Z -> (0 <= min_work_size)%Z -> 0 < localities -> 0 < reps ->
  length A = N * N -> length B = N * N ->
  even_chain (Z.of_nat N) min_work_size ->
  (forall n, size_of (Z.of_nat N) min_work_size n -> rec_ok transposed block_input block_result N (Z.to_nat n)) ->
  exists f, always (pseudodynamic_matrix_multiply N A B transposed block_result block_input min_work_size max_difference rel localities reps)
      (is_matrix N f) /\
    forall i j, i < N -> j < N -> exists ms, leaf_ok transposed block_input ms N /\ f i j = leaf_entry transposed block_input ms N A B i j.
Proof. exact (ps_any N A B transposed block_input block_result min_work_size max_difference rel localities reps). Qed.

(** C49: the three orders of summation used by the variants, for any number type. *)
Theorem C49_orders {T} `{NumOps T} o localities v (A B : list T) :
  length A = o_n o * o_n o -> length B = o_n o * o_n o -> flag_ok o v -> suitable o localities v ->
  exists f, always_tol (tolerated v) (computation o localities v A B) (is_matrix (o_n o) f) /\
    forall i j, i < o_n o -> j < o_n o -> summed (o_n o) A B i j (multiplies o v) (f i j).
Proof. exact (computation_order o localities v A B). Qed.

Local Open Scope R_scope.
(** C49: every finite entry is close to the exact dot product. *)
Theorem C49_rounding_error N A B o localities v :
  (length A = N * N)%nat -> (length B = N * N)%nat -> o_n o = N -> flag_ok o v -> suitable o localities v ->
  always_tol (tolerated v) (computation o localities v A B) (fun C => (length C = N * N)%nat /\
    forall i j, (i < N)%nat -> (j < N)%nat -> exists c, C !! (i * N + j)%nat = Some c /\
      (finite64 c = true ->
       Rabs (val64 c - exact_entry (multiplies o v) N A B i j) <= error_bound (multiplies o v) N A B i j)).
Proof. intros HA HB. exact (variant_error N A B HA HB o localities v). Qed.
(** Any two variants agree to 1e-10 on entries of magnitude at most one. *)
Theorem C49_variants_agree N A B o o' localities localities' v v' :
  (length A = N * N)%nat -> (length B = N * N)%nat -> unit_entries A -> unit_entries B -> (N <= 512)%nat ->
  o_n o = N -> o_n o' = N -> flag_ok o v -> flag_ok o' v' -> suitable o localities v -> suitable o' localities' v' ->
  multiplies o v = multiplies o' v' ->
  always_tol (tolerated v) (computation o localities v A B) (fun C =>
    always_tol (tolerated v') (computation o' localities' v' A B) (fun C' =>
      (length C = N * N)%nat /\ (length C' = N * N)%nat /\
      forall i j, (i < N)%nat -> (j < N)%nat -> exists c c', C !! (i * N + j)%nat = Some c /\ C' !! (i * N + j)%nat = Some c' /\
        finite64 c = true /\ finite64 c' = true /\ Rabs (val64 c - val64 c') < / 10 ^ 10)).
Proof.
  intros HA HB HuA HuB HN Ho Ho' Hf Hf' Hs Hs' Hm.
  eapply must_mono; [|exact (variants_agree N A B HA HB o o' localities localities' v v' HuA HuB HN Ho Ho' Hf Hf' Hs Hs' Hm)].
  intros C m HC. eapply must_mono; [|exact HC]. intros C' m' (H1&H2&H3). split; [exact H1|]. split; [exact H2|].
  intros i j Hi Hj. destruct (H3 i j Hi Hj) as (c&c'&Hc&Hc'&F1&F2&Hs3). exists c, c'. do 4 (split; [assumption|]).
  apply accept_iff in Hs3 as (_&_&Hle). eapply Rle_lt_trans; [exact Hle|exact threshold_below].
Qed.
(** So a comparison of the application's kind with the reference succeeds for
    every second matrix, not only for the identity. *)
Theorem C49_check_succeeds N A B o localities v :
  (length A = N * N)%nat -> (length B = N * N)%nat -> unit_entries A -> unit_entries B -> (N <= 512)%nat ->
  o_n o = N -> flag_ok o v -> suitable o localities v ->
  always_tol (tolerated v) (computation o localities v A B) (fun C => (length C = N * N)%nat /\
    forall i j, (i < N)%nat -> (j < N)%nat -> exists c, C !! (i * N + j)%nat = Some c /\
      small64 (absdiff64 c (pentry (multiplies o v) N A B i j)) = true).
Proof. intros HA HB HuA HuB HN. exact (variant_checked N A B HA HB o localities v HuA HuB HN). Qed.

(** C47 in binary64. *)
(** The literal 1E-10 is the double nearest to 10^-10. *)
Theorem C47_tolerance : val64 tolerance = round radix2 (FLT_exp (-1074) 53) ZnearestE (/ 10 ^ 10).
Proof. exact tolerance_nearest. Qed.
(** Two entries are accepted iff both are finite and at most
    15474250491067253 * 2^-87 apart, which is slightly less than 10^-10. *)
Theorem C47_accepted_iff a b : small64 (absdiff64 a b) = true <->
  finite64 a = true /\ finite64 b = true /\ Rabs (val64 a - val64 b) <= 15474250491067253 * bpow radix2 (-87).
Proof. exact (accept_iff a b). Qed.
Theorem C47_accepted_is_close a b : small64 (absdiff64 a b) = true ->
  finite64 a = true /\ finite64 b = true /\ Rabs (val64 a - val64 b) < / 10 ^ 10.
Proof.
  intros (Ha&Hb&Hd)%accept_iff. split; [done|]. split; [done|]. eapply Rle_lt_trans; [exact Hd|exact threshold_below].
Qed.
Theorem C47_nan_infinite_rejected a b : finite64 a = false \/ finite64 b = false -> small64 (absdiff64 a b) = false.
Proof. intros Hf. apply not_true_is_false. intros (Ha&Hb&_)%accept_iff. destruct Hf; congruence. Qed.
Theorem C47_identical_accepted a : finite64 a = true -> small64 (absdiff64 a a) = true.
Proof. exact (same64 a). Qed.
(** Read over the reals, "accepted iff less than 10^-10 apart" is false. *)
Theorem C47_real_reading_refuted : exists a b, finite64 a = true /\ finite64 b = true /\
  Rabs (val64 a - val64 b) < / 10 ^ 10 /\ small64 (absdiff64 a b) = false.
Proof.
  exists tolerance, (B754_finite 53 1024 false 6755399441055744 (-140) eq_refl).
  split; [reflexivity|]. split; [reflexivity|].
  assert (E : val64 tolerance - val64 (B754_finite 53 1024 false 6755399441055744 (-140) eq_refl) = 61897001964269013 * bpow radix2 (-89)).
  { rewrite tolerance_value. cbn [B2R]. unfold F2R. cbn [Fnum Fexp cond_Zopp].
    rewrite (bp 86), (bp 89), (bp 140). change (2 ^ 86)%Z with (2 ^ 86)%Z.
    change (2 ^ 140)%Z with (2 ^ 86 * 2 ^ 54)%Z. change (2 ^ 89)%Z with (2 ^ 86 * 8)%Z. rewrite !mult_IZR.
    assert (IZR (2 ^ 86) <> 0) by (apply not_0_IZR; discriminate). change (IZR (2 ^ 54)) with 18014398509481984. field. done. }
  split.
  - rewrite E, Rabs_pos_eq by (pose proof (bpow_ge_0 radix2 (-89)); lra). rewrite (bp 89).
    change (2 ^ 89)%Z with 618970019642690137449562112%Z. lra.
  - vm_compute. reflexivity.
Qed.

(** C47 for the application: a positive verdict means closeness over the reals. *)
Theorem C47_positive_verdict (o : options) localities (gen : nat -> binary64) v r :
  o_help o = false -> (o_algorithm o, v) ∈ accepted -> flag_ok o v -> o_check o = true ->
  app_ends (main absdiff64 small64 o localities gen) (Ok r) -> r_check r = Some true ->
  let A := gen <$> seq 0 (o_n o * o_n o) in
  exists B, is_identity (o_n o) B /\ (length (r_C r) = o_n o * o_n o)%nat /\
    forall i j, (i < o_n o)%nat -> (j < o_n o)%nat -> exists c, r_C r !! (i * o_n o + j)%nat = Some c /\
      finite64 c = true /\ finite64 (pentry (o_transposed o) (o_n o) A B i j) = true /\
      Rabs (val64 c - val64 (pentry (o_transposed o) (o_n o) A B i j)) < / 10 ^ 10.
Proof.
  intros Hh Hin Hf Hc He Hr. destruct (C47_check absdiff64 small64 o localities gen v r Hh Hin Hf He) as (_&_&B&HI&_&Hv).
  rewrite Hc in Hv. destruct Hv as (ok&Ho&Hiff). rewrite Hr in Ho. injection Ho as <-.
  destruct (proj1 Hiff eq_refl) as [HL Hall]. exists B. split; [done|]. split; [done|]. intros i j Hi Hj.
  destruct (Hall i j Hi Hj) as (c&Hcl&Hs). exists c. split; [done|]. by apply C47_accepted_is_close.
Qed.

(** C58 for doubles: whatever finite, not negative numbers the generator gives. *)
Theorem C58_end_to_end_double (o : options) localities (gen : nat -> binary64) v :
  o_help o = false -> (o_algorithm o, v) ∈ accepted -> flag_ok o v -> suitable o localities v ->
  (forall k, (k < o_n o * o_n o)%nat -> finite64 (gen k) = true /\ neg64 (gen k) = false) ->
  app_always (tolerated v) (main absdiff64 small64 o localities gen)
    (fun r => r = Outcome 0 false (if o_check o then Some true else None) (gen <$> seq 0 (o_n o * o_n o))).
Proof.
  intros Hh Hin Hf Hs Hg. apply C58_end_to_end; [done..| |].
  - by apply unit64.
  - intros k Hk. destruct (Hg k Hk) as [H1 H2]. split; [by apply unit64|by apply same64].
Qed.

Print Assumptions C19_pseudodynamic_any_order.
Print Assumptions C49_orders.
Print Assumptions C49_rounding_error.
Print Assumptions C49_variants_agree.
Print Assumptions C49_check_succeeds.
Print Assumptions C47_tolerance.
Print Assumptions C47_accepted_iff.
Print Assumptions C47_accepted_is_close.
Print Assumptions C47_nan_infinite_rejected.
Print Assumptions C47_identical_accepted.
Print Assumptions C47_real_reading_refuted.
Print Assumptions C47_positive_verdict.
Print Assumptions C58_end_to_end_double.
