(** C68: contraction of a*b+c into one operation. *)
From Coq Require Import ZArith Reals Psatz.
From Flocq Require Import Core IEEE754.Binary IEEE754.Bits.
From Verif Require Import Base Conc ConcFacts Num Spec SpecTiled SpecSched SpecApp SpecRound SpecContract MCeil MDouble MContract PContract2 PContract3 PUtil MApp.

(** C68: the order in which an entry is summed up is fixed before the matrices
    and even the type of the numbers are known. *)
Theorem C68_same_order o localities v : flag_ok o v -> suitable o localities v ->
  exists q : nat -> nat -> summation,
    (forall i j, i < o_n o -> j < o_n o -> order_ok (o_n o) (multiplies o v) (q i j)) /\
    forall (T : Type) (ops : NumOps T) (A B : list T), length A = o_n o * o_n o -> length B = o_n o * o_n o ->
      always_tol (tolerated v) (computation o localities v A B)
        (is_matrix (o_n o) (fun i j => entry_in (multiplies o v) (q i j) (o_n o) A B i j)).
Proof. exact (same_order o localities v). Qed.
Print Assumptions C68_same_order.

Local Open Scope R_scope.
(** C68: the error bound of C49 holds for every compilation. *)
Theorem C68_contracted_error N A B o localities v : (length A = N * N)%nat -> (length B = N * N)%nat ->
  o_n o = N -> flag_ok o v -> suitable o localities v ->
  always_tol (tolerated v) (computation o localities v (TNum <$> A) (TNum <$> B)) (fun D => (length D = N * N)%nat /\
    forall C, Forall2 compiled D C -> forall i j, (i < N)%nat -> (j < N)%nat -> exists c, C !! (i * N + j)%nat = Some c /\
      (finite64 c = true -> Rabs (val64 c - exact_entry (multiplies o v) N A B i j) <= error_bound (multiplies o v) N A B i j)).
Proof. intros HA HB. exact (contracted_error N A B HA HB o localities v). Qed.
Print Assumptions C68_contracted_error.

(** C68: any two variants, each compiled in any way, agree on entries in [-1,1]
    up to twice that bound; up to N = 512 the test of main accepts. *)
Theorem C68_contracted_agree N A B o o' localities localities' v v' : (length A = N * N)%nat -> (length B = N * N)%nat ->
  unit_entries A -> unit_entries B -> (Z.of_nat N <= 524288)%Z ->
  o_n o = N -> o_n o' = N -> flag_ok o v -> flag_ok o' v' -> suitable o localities v -> suitable o' localities' v' -> multiplies o v = multiplies o' v' ->
  always_tol (tolerated v) (computation o localities v (TNum <$> A) (TNum <$> B)) (fun D =>
    always_tol (tolerated v') (computation o' localities' v' (TNum <$> A) (TNum <$> B)) (fun D' =>
      forall C C', Forall2 compiled D C -> Forall2 compiled D' C' ->
      forall i j, (i < N)%nat -> (j < N)%nat -> exists c c', C !! (i * N + j)%nat = Some c /\ C' !! (i * N + j)%nat = Some c' /\
        finite64 c = true /\ finite64 c' = true /\ Rabs (val64 c - val64 c') <= 2 * error_bound (multiplies o v) N A B i j /\
        ((N <= 512)%nat -> small64 (absdiff64 c c') = true))).
Proof. intros HA HB. exact (contracted_agree N A B HA HB o o' localities localities' v v'). Qed.
Print Assumptions C68_contracted_agree.

(** C68: without any contraction the result is that of the runs on doubles. *)
Theorem C68_uncontracted N A B o localities v : (length A = N * N)%nat -> (length B = N * N)%nat ->
  o_n o = N -> flag_ok o v -> suitable o localities v ->
  exists D, always_tol (tolerated v) (computation o localities v (TNum <$> A) (TNum <$> B)) (eq D) /\
    Forall2 compiled D (separate <$> D) /\
    always_tol (tolerated v) (computation o localities v A B) (eq (separate <$> D)).
Proof. intros HA HB. exact (double_among N A B HA HB o localities v). Qed.
Print Assumptions C68_uncontracted.

(** C68: that all compilations give the same bits is refuted for single, N = 2. *)
Theorem C68_same_bits_refuted o localities : o_n o = 2%nat -> o_transposed o = false -> suitable o localities Single ->
  exists A B, length A = 4%nat /\ length B = 4%nat /\ unit_entries A /\ unit_entries B /\
    always (computation o localities Single (TNum <$> A) (TNum <$> B)) (fun D =>
      exists C C', Forall2 compiled D C /\ Forall2 compiled D C' /\ C <> C').
Proof. exact (different_bits o localities). Qed.
Print Assumptions C68_same_bits_refuted.
