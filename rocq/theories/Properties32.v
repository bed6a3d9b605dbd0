(** NaNs, infinities, overflow and signed zeros in the products (C91). *)
From Coq Require Import ZArith Reals.
From Flocq Require Import Core IEEE754.Binary IEEE754.Bits.
From Verif Require Import Conc Base Num Spec SpecContract MCeil MDouble MContract SpecRound PSpecial PSpecial2 SpecSpecial MApp SpecApp.

(** C91: an entry depends on nothing but its row and its column, for every number type. *)
Theorem C91_confined {T} `{NumOps T} o G v (A B A' B' : list T) i j :
  length A = o_n o * o_n o -> length B = o_n o * o_n o -> length A' = o_n o * o_n o -> length B' = o_n o * o_n o ->
  flag_ok o v -> suitable o G v -> i < o_n o -> j < o_n o -> same_inputs (multiplies o v) (o_n o) i j A B A' B' ->
  exists e, always_tol (tolerated v) (computation o G v A B) (fun C => C !! (i * o_n o + j) = Some e) /\
    always_tol (tolerated v) (computation o G v A' B') (fun C => C !! (i * o_n o + j) = Some e).
Proof. exact (confined o G v A B A' B' i j). Qed.
Print Assumptions C91_confined.
(** C91: a NaN among the inputs of an entry makes the entry a NaN, whatever the compiler fuses. *)
Theorem C91_nan o G v A B : length A = o_n o * o_n o -> length B = o_n o * o_n o -> flag_ok o v -> suitable o G v ->
  always_tol (tolerated v) (computation o G v (TNum <$> A) (TNum <$> B)) (fun D => forall C, Forall2 compiled D C ->
    forall i j, i < o_n o -> j < o_n o -> nan_input (multiplies o v) (o_n o) i j A B ->
      exists c, C !! (i * o_n o + j) = Some c /\ nan64 c = true).
Proof.
  intros HA HB Hf Hs. eapply ConcFacts.must_mono; [|exact (special o G v A B HA HB Hf Hs)].
  intros D m HD C HC i j Hi Hj Hn. destruct (HD C HC i j Hi Hj) as (c&Hc&H1&_). eauto.
Qed.
Print Assumptions C91_nan.
(** C91: an infinity or a NaN among the inputs is never lost: an entry that is finite has finite inputs only. *)
Theorem C91_finite o G v A B : length A = o_n o * o_n o -> length B = o_n o * o_n o -> flag_ok o v -> suitable o G v ->
  always_tol (tolerated v) (computation o G v (TNum <$> A) (TNum <$> B)) (fun D => forall C, Forall2 compiled D C ->
    forall i j, i < o_n o -> j < o_n o -> exists c, C !! (i * o_n o + j) = Some c /\
      (finite64 c = true -> finite_inputs (multiplies o v) (o_n o) i j A B)).
Proof.
  intros HA HB Hf Hs. eapply ConcFacts.must_mono; [|exact (special o G v A B HA HB Hf Hs)].
  intros D m HD C HC i j Hi Hj. destruct (HD C HC i j Hi Hj) as (c&Hc&_&H1&_). eauto.
Qed.
Print Assumptions C91_finite.
(** C91: and the other way round, if the absolute values of the products sum up to at most 2^1022, a quarter of the
    range of double. *)
Theorem C91_no_overflow o G v A B : length A = o_n o * o_n o -> length B = o_n o * o_n o -> flag_ok o v -> suitable o G v ->
  (Z.of_nat (o_n o) <= 524288)%Z ->
  always_tol (tolerated v) (computation o G v (TNum <$> A) (TNum <$> B)) (fun D => forall C, Forall2 compiled D C ->
    forall i j, i < o_n o -> j < o_n o -> (magnitude (multiplies o v) (o_n o) A B i j <= bpow radix2 1022)%R ->
      exists c, C !! (i * o_n o + j) = Some c /\ (finite64 c = true <-> finite_inputs (multiplies o v) (o_n o) i j A B)).
Proof.
  intros HA HB Hf Hs Hn. eapply ConcFacts.must_mono; [|exact (special o G v A B HA HB Hf Hs)].
  intros D m HD C HC i j Hi Hj Hm. destruct (HD C HC i j Hi Hj) as (c&Hc&_&H1&H2). exists c. split; [done|]. split; auto.
Qed.
Print Assumptions C91_no_overflow.
(** C91: without fused operations no entry is -0. *)
Theorem C91_no_minus_zero o G v (A B : list binary64) : length A = o_n o * o_n o -> length B = o_n o * o_n o -> flag_ok o v -> suitable o G v ->
  always_tol (tolerated v) (computation o G v A B) (fun C => minus_zero ∉ C).
Proof. exact (no_minus_zero o G v A B). Qed.
Print Assumptions C91_no_minus_zero.
(** C91: with them one may be, also for inputs between -1 and 1. *)
Theorem C91_minus_zero_fused_refuted o G : o_n o = 1 -> o_transposed o = false -> suitable o G Single ->
  exists A B : list binary64, length A = 1 /\ length B = 1 /\ unit_entries A /\ unit_entries B /\
    always (computation o G Single (TNum <$> A) (TNum <$> B)) (fun D => exists C, Forall2 compiled D C /\ minus_zero ∈ C).
Proof. exact (minus_zero_fused o G). Qed.
Print Assumptions C91_minus_zero_fused_refuted.
(** C91: beyond that range the implementations do not agree on what overflows: with the same options and the same
    finite matrices one of them returns an infinity where another returns a finite number. *)
Theorem C91_same_overflow_refuted o G : o_n o = 4 -> o_block_input o = 2 -> suitable o G Algorithms -> suitable o G Looped ->
  exists A B : list binary64, length A = 16 /\ length B = 16 /\ (forall x, x ∈ A \/ x ∈ B -> finite64 x = true) /\
    always (computation o G Algorithms A B) (fun C => C !! 0 = Some (B754_infinity 53 1024 false)) /\
    always (computation o G Looped A B) (fun C => exists c, C !! 0 = Some c /\ finite64 c = true).
Proof. exact (overflow_differs o G). Qed.
Print Assumptions C91_same_overflow_refuted.
