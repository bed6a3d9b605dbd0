(** Theorems about the random matrices (C90), and C43 for doubles. *)
From Coq Require Import ZArith Reals Lra.
From Flocq Require Import Core IEEE754.Binary IEEE754.Bits.
From Verif Require Import Base Conc Num Spec MUtil MNaive MDouble SpecRound MTests SpecTests PTests2 Properties11 MRandom SpecRandom PRandom PRandom2 PRandom3 MApp SpecApp.
Local Open Scope nat_scope.

(** C43 for doubles. *)
Theorem C43_identity_double N (A : list binary64) : length A = N * N -> Forall (fun x => finite64 x = true /\ neg64 x = false) A ->
  always (let! Id := create_identity_matrix N in naive_matrix_multiply N A Id) (fun C => C = A).
Proof. exact (identity64 N A). Qed.
Print Assumptions C43_identity_double.

(** C90: the engines are the two of the standard, [rand.predef], with the outputs
    it requires at the 10000th call. *)
Theorem C90_libraries :
  is_multiplier multiplier_libstdcxx /\ power_residue multiplier_libstdcxx (N.to_nat 10000) = 1043618065%Z /\
  is_multiplier multiplier_libcxx /\ power_residue multiplier_libcxx (N.to_nat 10000) = 399268537%Z.
Proof. exact libraries. Qed.
Print Assumptions C90_libraries.

Section Draws.
  (** Whichever library, however its loop is compiled, with and without its guard. *)
  Context (guarded : bool) (contracted : nat -> bool) (a : Z).

  (** C90: the engine has the full period 2^31 - 2. *)
  Theorem C90_engine : is_multiplier a ->
    (forall k, engine_after guarded contracted a k = power_residue a (2 * k)) /\
    (forall n, engine_step a (power_residue a n) = power_residue a (S n) /\ (1 <= power_residue a n <= 2 ^ 31 - 2)%Z) /\
    (forall i j, power_residue a i = power_residue a j <-> (Z.of_nat i mod (2 ^ 31 - 2) = Z.of_nat j mod (2 ^ 31 - 2))%Z).
  Proof.
    intros Ha. split; [exact (after_residue guarded contracted a)|]. split; [|exact (residue_iff a Ha)].
    intros n. split; [exact (step_residue a n)|exact (residue_range a Ha n)].
  Qed.
  (** Every draw is the fraction rounded, and well inside the unit interval. *)
  Theorem C90_draws k : is_multiplier a ->
    let d := draw guarded contracted a k in
    finite64 d = true /\ (Rabs (val64 d - fraction a k) <= 4 * uro * fraction a k)%R /\ (3 / 10 ^ 10 < val64 d < 1 - 3 / 10 ^ 10)%R.
  Proof.
    intros Ha. split; [exact (proj1 (draw_val guarded contracted a Ha k))|]. split; [exact (draw_close guarded contracted a Ha k)|exact (draw_range guarded contracted a Ha k)].
  Qed.
  Theorem C90_guard k : is_multiplier a -> draw true contracted a k = draw false contracted a k.
  Proof. exact (guard_useless contracted a k). Qed.
  (** Two draws are equal or far apart. *)
  Theorem C90_apart i j : is_multiplier a ->
    let d := draw guarded contracted a in
    (same_phase i j -> d i = d j) /\ (~ same_phase i j -> (3 / 10 ^ 10 < Rabs (val64 (d i) - val64 (d j)))%R).
  Proof. intros Ha. split; [exact (draw_repeats guarded contracted a Ha i j)|exact (draw_apart guarded contracted a Ha i j)]. Qed.
  (** The entries of a random matrix are pairwise different up to size 32767, and
      not beyond. *)
  Theorem C90_distinct N : is_multiplier a ->
    NoDup (draw guarded contracted a <$> seq 0 (N * N)) <-> (Z.of_nat N <= 32767)%Z.
  Proof.
    intros Ha. rewrite (distinct_prefix guarded contracted a Ha). change period with 1073741823%Z. rewrite Nat2Z.inj_mul. nia.
  Qed.

  (** C58 with the numbers that are really drawn. *)
  Theorem C90_end_to_end (o : options) localities v : is_multiplier a ->
    o_help o = false -> (o_algorithm o, v) ∈ accepted -> flag_ok o v -> suitable o localities v ->
    app_always (tolerated v) (main absdiff64 small64 o localities (draw guarded contracted a))
      (fun r => r = Outcome 0 false (if o_check o then Some true else None) (draw guarded contracted a <$> seq 0 (o_n o * o_n o))).
  Proof.
    intros Ha Hh Hin Hf Hs. apply C58_end_to_end_double; [done..|]. intros k _. exact (draws_nonneg guarded contracted a Ha k).
  Qed.
  (** C70 with the numbers that are really drawn. *)
  Theorem C90_suites_pass c : is_multiplier a -> c ∈ all_cases -> ~ two_by_two_semi c -> passes (draw guarded contracted a) under_test c.
  Proof. intros Ha. apply suites_pass. exact (draws_unit guarded contracted a Ha). Qed.

  Section Check.
    Context (o : options) (localities : nat) (v : choice) (r : outcome binary64).
    Context (Hh : o_help o = false) (Hin : (o_algorithm o, v) ∈ accepted) (Hf : flag_ok o v) (Hc : o_check o = true).
    Notation A := (draw guarded contracted a <$> seq 0 (o_n o * o_n o)).

    (** The check notices a zero, and an entry that stands in the wrong place. *)
    Theorem C90_check_exact : is_multiplier a -> (Z.of_nat (o_n o) <= 32767)%Z ->
      app_ends (main absdiff64 small64 o localities (draw guarded contracted a)) (Ok r) ->
      length (r_C r) = o_n o * o_n o -> (forall x, x ∈ r_C r -> x = nzero \/ x ∈ A) ->
      r_check r = Some true <-> r_C r = A.
    Proof. intros Ha HN He. exact (verdict_exact guarded contracted a Ha o localities v r Hh Hin Hf Hc He HN). Qed.
    (** Hence the entries that odd sizes lose. *)
    Theorem C90_single_odd_noticed : is_multiplier a -> v = Single -> Nat.odd (o_n o) = true -> o_block_result o < o_n o -> 0 < o_repetitions o ->
      app_ends (main absdiff64 small64 o localities (draw guarded contracted a)) (Ok r) -> r_check r = Some false.
    Proof.
      intros Ha H1 H2 H3 H4 He. exact (single_odd_noticed guarded contracted a Ha o localities v r Hh Hin Hf Hc He H1 H2 H3 H4).
    Qed.
    Theorem C90_pseudodynamic_odd_noticed : is_multiplier a -> v = Pseudodynamic -> Nat.odd (o_n o) = true -> 3 <= localities ->
      (Z.of_nat (o_n o) * Z.of_nat (o_n o) < 2 ^ 62)%Z -> (0 <= o_min_work_size o < Z.of_nat (o_n o))%Z ->
      (o_max_work_difference o <= Z.of_nat (o_n o) * Z.of_nat (o_n o))%Z ->
      app_ends (main absdiff64 small64 o localities (draw guarded contracted a)) (Ok r) -> r_check r = Some false.
    Proof.
      intros Ha H1 H2 H3 H4 H5 H6 He. exact (pseudo_odd_noticed guarded contracted a Ha o localities v r Hh Hin Hf Hc He H1 H2 H3 H4 H5 H6).
    Qed.
  End Check.
End Draws.
Print Assumptions C90_engine.
Print Assumptions C90_draws.
Print Assumptions C90_guard.
Print Assumptions C90_apart.
Print Assumptions C90_distinct.
Print Assumptions C90_end_to_end.
Print Assumptions C90_suites_pass.
Print Assumptions C90_check_exact.
Print Assumptions C90_single_odd_noticed.
Print Assumptions C90_pseudodynamic_odd_noticed.
