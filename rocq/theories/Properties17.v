(** C69: matrices of integers are multiplied without any rounding. *)
From Coq Require Import ZArith Reals Psatz.
From Flocq Require Import Core IEEE754.Binary IEEE754.Bits.
From Verif Require Import Base Conc ConcFacts Num Spec SpecApp SpecRound SpecContract SpecExact MCeil MDouble MContract PExact64 MApp.
Local Open Scope R_scope.

(** C69: every variant, run in any order and compiled with any contraction,
    returns the doubles that hold the exact entries (zero is +0). *)
Theorem C69_integer_exact N A B o localities v : (length A = N * N)%nat -> (length B = N * N)%nat -> integral A -> integral B ->
  o_n o = N -> flag_ok o v -> suitable o localities v -> within_53_bits (multiplies o v) N A B ->
  always_tol (tolerated v) (computation o localities v (TNum <$> A) (TNum <$> B)) (fun D =>
    forall C, Forall2 compiled D C -> (length C = N * N)%nat /\ forall i j, (i < N)%nat -> (j < N)%nat ->
      exists z, exact_entry (multiplies o v) N A B i j = IZR z /\ C !! (i * N + j)%nat = Some (double_of z)).
Proof. intros HA HB HzA HzB. exact (integer_exact N A B HA HB HzA HzB o localities v). Qed.
Print Assumptions C69_integer_exact.

(** C69: the plain double run. *)
Theorem C69_integer_value N A B o localities v : (length A = N * N)%nat -> (length B = N * N)%nat -> integral A -> integral B ->
  o_n o = N -> flag_ok o v -> suitable o localities v -> within_53_bits (multiplies o v) N A B ->
  always_tol (tolerated v) (computation o localities v A B) (fun C => (length C = N * N)%nat /\ forall i j, (i < N)%nat -> (j < N)%nat ->
    exists c, C !! (i * N + j)%nat = Some c /\ finite64 c = true /\ val64 c = exact_entry (multiplies o v) N A B i j).
Proof. intros HA HB HzA HzB. exact (integer_value N A B HA HB HzA HzB o localities v). Qed.
Print Assumptions C69_integer_value.

(** C69: so two variants return the same bits, however they are compiled. *)
Theorem C69_integer_same_bits N A B o o' localities localities' v v' : (length A = N * N)%nat -> (length B = N * N)%nat ->
  integral A -> integral B ->
  o_n o = N -> o_n o' = N -> flag_ok o v -> flag_ok o' v' -> suitable o localities v -> suitable o' localities' v' ->
  multiplies o v = multiplies o' v' -> within_53_bits (multiplies o v) N A B ->
  always_tol (tolerated v) (computation o localities v (TNum <$> A) (TNum <$> B)) (fun D =>
    always_tol (tolerated v') (computation o' localities' v' (TNum <$> A) (TNum <$> B)) (fun D' =>
      forall C C', Forall2 compiled D C -> Forall2 compiled D' C' -> C = C')).
Proof. intros HA HB HzA HzB. exact (integer_same_bits N A B HA HB HzA HzB o o' localities localities' v v'). Qed.
Print Assumptions C69_integer_same_bits.

(** C69: the bound 2^53 cannot be raised, not even by one: no double at all is
    the exact entry. *)
Theorem C69_larger_bound_refuted : exists A B, length A = 4%nat /\ length B = 4%nat /\ integral A /\ integral B /\
  (forall i j, (i < 2)%nat -> (j < 2)%nat -> magnitude false 2 A B i j <= bpow radix2 53 + 1) /\
  forall c : binary64, val64 c <> exact_entry false 2 A B 0 0.
Proof.
  destruct too_big as (H1&H2&H3&H4). exists big_A, big_B. do 4 (split; [done|]). split; [exact H3|].
  intros c. rewrite H4. exact (not_double c).
Qed.
Print Assumptions C69_larger_bound_refuted.
