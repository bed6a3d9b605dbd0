(** Property theorems, part 2: the work scheduler and algorithm pseudodynamic. *)
From Verif Require Import Spec Conc MSchedule SpecSched.
From Verif Require Import Tools PSchedule PPseudo.
Local Open Scope Z_scope.

(** Reachable states of the loop of create_schedule, read off the model's single
    iteration. *)
Definition reachable (N mws maxd : Z) (rel : Z -> Z -> bool) (L : nat) (s : sched) : Prop :=
  exists s0, sched_init N L = Ok s0 /\ rtc (fun s s' => sched_step mws maxd rel s = Ok (Some s')) s0 s.

Section Props.
  Context (N mws maxd : Z) (rel : Z -> Z -> bool) (L : nat).
  Context (HN : 0 <= N) (HN2 : N * N < 2 ^ 62) (Hmws : 0 <= mws).

  (** C13: create_schedule returns, without failure ... *)
  Theorem C13_schedule_terminates fuel : (0 < L)%nat -> N * N * N < Z.of_nat fuel ->
    exists all, create_schedule N mws maxd rel fuel L = Ok all /\
      forall fuel', (fuel <= fuel')%nat -> create_schedule N mws maxd rel fuel' L = Ok all.
  Proof. exact (schedule_terminates N mws maxd rel HN HN2 Hmws fuel L). Qed.
  (** ... and its while loop has no infinite run. *)
  Theorem C13_schedule_no_infinite_loop (f : nat -> sched) :
    sched_init N L = Ok (f 0%nat) -> (forall i, sched_step mws maxd rel (f i) = Ok (Some (f (S i)))) -> False.
  Proof. exact (no_infinite_run N mws maxd rel HN HN2 Hmws L f). Qed.

  (** C14 *)
  Theorem C14_packages_disjoint_inside fuel all :
    create_schedule N mws maxd rel fuel L = Ok all ->
    Forall (inside N) (concat all) /\ forall i j, (hits i j (concat all) <= 1)%nat.
  Proof. exact (schedule_disjoint N mws maxd rel HN HN2 Hmws fuel L all). Qed.
  Theorem C14_packages_disjoint_positions fuel all k k' w w' i j :
    create_schedule N mws maxd rel fuel L = Ok all ->
    concat all !! k = Some w -> concat all !! k' = Some w' -> has w i j -> has w' i j -> k = k'.
  Proof. exact (schedule_positions N mws maxd rel HN HN2 Hmws fuel L all k k' w w' i j). Qed.
  Theorem C14_one_slot_per_locality fuel all :
    create_schedule N mws maxd rel fuel L = Ok all -> length all = L.
  Proof. exact (schedule_length N mws maxd rel HN HN2 Hmws fuel L all). Qed.

  (** C15 *)
  Theorem C15_packages_cover fuel all : even_chain N mws ->
    create_schedule N mws maxd rel fuel L = Ok all ->
    forall i j, hits i j (concat all) = (if decide (0 <= i < N /\ 0 <= j < N) then 1%nat else 0%nat).
  Proof. exact (schedule_cover N mws maxd rel HN HN2 Hmws fuel L all). Qed.

  (** C16: entries are only lost by splitting an odd size ... *)
  Theorem C16_lost_only_by_odd_split fuel all i j :
    create_schedule N mws maxd rel fuel L = Ok all -> 0 <= i < N -> 0 <= j < N -> hits i j (concat all) = 0%nat ->
    exists n, size_of N mws n /\ mws < n /\ Z.odd n = true.
  Proof. exact (schedule_lost_odd N mws maxd rel HN HN2 Hmws fuel L all i j). Qed.
  (** ... and for every odd N the last entry is lost on two or more localities
      unless the absolute bound already tolerates the initial imbalance. *)
  Theorem C16_odd_loses_entry fuel all : (2 <= L)%nat -> Z.odd N = true -> mws < N -> maxd <= N * N ->
    create_schedule N mws maxd rel fuel L = Ok all -> hits (N - 1) (N - 1) (concat all) = 0%nat.
  Proof. exact (schedule_odd_lost N mws maxd rel HN HN2 Hmws fuel L all). Qed.

  (** C17: monotone balance at every iteration; exit only for a reason. *)
  Theorem C17_balance_monotone s s' t t' u u' : reachable N mws maxd rel L s -> sched_step mws maxd rel s = Ok (Some s') ->
    is_max t (total_work s) -> is_max t' (total_work s') -> is_min u (total_work s) -> is_min u' (total_work s') ->
    t' <= t /\ u <= u' /\ ~ balanced maxd rel (total_work s).
  Proof. exact (schedule_monotone N mws maxd rel HN HN2 Hmws L s s' t t' u u'). Qed.
  Theorem C17_exit_reason fuel s : create_schedule_state N mws maxd rel fuel L = Ok s ->
    balanced maxd rel (total_work s) \/ stuck mws s.
  Proof. exact (schedule_exit N mws maxd rel HN HN2 Hmws fuel L s). Qed.

  (** C18 *)
  Theorem C18_accounting s : reachable N mws maxd rel L s ->
    length (all_work s) = L /\ length (total_work s) = L /\ sumZ (total_work s) = N * N /\
    Forall (fun t => 0 <= t <= N * N) (total_work s) /\
    (forall i t ws, total_work s !! i = Some t -> all_work s !! i = Some ws -> area ws <= t).
  Proof. exact (schedule_accounting N mws maxd rel HN HN2 Hmws L s). Qed.
  Theorem C18_no_wrap s mx mn i ws w : reachable N mws maxd rel L s ->
    is_max mx (total_work s) -> is_min mn (total_work s) ->
    total_work s !! i = Some mx -> all_work s !! i = Some ws -> w ∈ ws ->
    work_difference mx mn w = Ok (diff_after mx mn w) /\
    0 <= wN w * wN w / 2 <= mx /\ mn + wN w * wN w / 2 < 2 ^ 63 /\ 2 * (wN w / 2 * (wN w / 2)) <= mx.
  Proof. exact (schedule_no_wrap N mws maxd rel HN HN2 Hmws L s mx mn i ws w). Qed.
  Theorem C18_exact_when_even s : even_chain N mws -> reachable N mws maxd rel L s ->
    forall i t ws, total_work s !! i = Some t -> all_work s !! i = Some ws -> area ws = t.
  Proof. exact (reach_rows_exact N mws maxd rel HN HN2 Hmws L s). Qed.
End Props.
Print Assumptions C13_schedule_terminates.
Print Assumptions C13_schedule_no_infinite_loop.
Print Assumptions C14_packages_disjoint_inside.
Print Assumptions C14_packages_disjoint_positions.
Print Assumptions C14_one_slot_per_locality.
Print Assumptions C15_packages_cover.
Print Assumptions C16_lost_only_by_odd_split.
Print Assumptions C16_odd_loses_entry.
Print Assumptions C17_balance_monotone.
Print Assumptions C17_exit_reason.
Print Assumptions C18_accounting.
Print Assumptions C18_no_wrap.
Print Assumptions C18_exact_when_even.

(** C15 for powers of two. *)
Theorem C15_power_of_two e mws maxd rel L fuel all :
  (2 * e < 62)%nat -> 1 <= mws ->
  create_schedule (2 ^ Z.of_nat e) mws maxd rel fuel L = Ok all ->
  forall i j, hits i j (concat all) =
    (if decide (0 <= i < 2 ^ Z.of_nat e /\ 0 <= j < 2 ^ Z.of_nat e) then 1%nat else 0%nat).
Proof. exact (schedule_pow2 e mws maxd rel L fuel all). Qed.
Print Assumptions C15_power_of_two.

(** C16: size 1 on a single locality with min_work_size 0 and zero bounds. *)
Theorem C16_single_locality_refuted rel fuel : (2 < fuel)%nat -> rel 0 1 = false ->
  exists all, create_schedule 1 0 0 rel fuel 1 = Ok all /\ hits 0 0 (concat all) = 0%nat.
Proof. exact (schedule_single_lost rel fuel). Qed.
Print Assumptions C16_single_locality_refuted.

Local Close Scope Z_scope.
Section Pseudo.
  Context {T : Type} `{NumOps T}.
  Context (A B : list T) (transposed : bool) (bi br : nat).
  Context (mws maxd : Z) (rel : Z -> Z -> bool) (G reps : nat).

  (** C16: the lost entry of the product stays zero. *)
  Theorem C16_odd_product_entry_zero N C :
    (Z.of_nat N * Z.of_nat N < 2 ^ 62)%Z -> (0 <= mws < Z.of_nat N)%Z -> 3 <= G ->
    Nat.odd N = true -> (maxd <= Z.of_nat N * Z.of_nat N)%Z ->
    may_return (pseudodynamic_matrix_multiply N A B transposed br bi mws maxd rel G reps) C ->
    C !! ((N - 1) * N + (N - 1)) = Some nzero.
  Proof. exact (ps_odd_lost N A B transposed bi br mws maxd rel G reps C). Qed.

  (** C19: every locality count, every parameter, every schedule. *)
  Theorem C19_pseudodynamic_product `{!Exact T} N :
    (Z.of_nat N * Z.of_nat N < 2 ^ 62)%Z -> (0 <= mws)%Z -> 0 < G -> 0 < reps ->
    length A = N * N -> length B = N * N ->
    even_chain (Z.of_nat N) mws ->
    (forall n, size_of (Z.of_nat N) mws n -> rec_ok transposed bi br N (Z.to_nat n)) ->
    always (pseudodynamic_matrix_multiply N A B transposed br bi mws maxd rel G reps)
           (is_matrix N (pentry transposed N A B)).
  Proof. exact (ps_exact N A B transposed bi br mws maxd rel G reps). Qed.
  Theorem C19_pseudodynamic_power_of_two `{!Exact T} e :
    2 * e < 62 -> (1 <= mws)%Z -> 0 < G -> 0 < reps ->
    length A = 2 ^ e * 2 ^ e -> length B = 2 ^ e * 2 ^ e -> 1 <= br -> bi = 0 \/ (bi | 2 ^ e) ->
    always (pseudodynamic_matrix_multiply (2 ^ e) A B transposed br bi mws maxd rel G reps)
           (is_matrix (2 ^ e) (pentry transposed (2 ^ e) A B)).
  Proof. exact (ps_pow2_exact e A B transposed bi br mws maxd rel G reps). Qed.
  (** Without any law of arithmetic: the rounding behaviour is that of the
      chunked sum, whatever the localities and balance parameters are. *)
  Theorem C19_pseudodynamic_order e :
    2 <= e -> 2 * e < 62 -> (4 <= mws)%Z -> 0 < G -> 0 < reps ->
    length A = 2 ^ e * 2 ^ e -> length B = 2 ^ e * 2 ^ e -> 4 <= br -> bi = 0 \/ (bi | 2 ^ e) ->
    always (pseudodynamic_matrix_multiply (2 ^ e) A B transposed br bi mws maxd rel G reps)
           (is_matrix (2 ^ e) (leaf_entry transposed bi 4 (2 ^ e) A B)).
  Proof. exact (ps_pow2_order e A B transposed bi br mws maxd rel G reps). Qed.
End Pseudo.
Print Assumptions C16_odd_product_entry_zero.
Print Assumptions C19_pseudodynamic_product.
Print Assumptions C19_pseudodynamic_power_of_two.
Print Assumptions C19_pseudodynamic_order.

(** C19: the result does not depend on the number of localities or on the
    balance parameters. *)
Theorem C19_locality_independent {T : Type} `{NumOps T} e (A B : list T) transposed bi br mws maxd rel G reps mws' maxd' rel' G' reps' :
  2 <= e -> 2 * e < 62 -> (4 <= mws)%Z -> (4 <= mws')%Z -> 0 < G -> 0 < G' -> 0 < reps -> 0 < reps' ->
  length A = 2 ^ e * 2 ^ e -> length B = 2 ^ e * 2 ^ e -> 4 <= br -> bi = 0 \/ (bi | 2 ^ e) ->
  exists C, always (pseudodynamic_matrix_multiply (2 ^ e) A B transposed br bi mws maxd rel G reps) (fun C' => C' = C) /\
            always (pseudodynamic_matrix_multiply (2 ^ e) A B transposed br bi mws' maxd' rel' G' reps') (fun C' => C' = C).
Proof. exact (ps_independent e A B transposed bi br mws maxd rel G reps mws' maxd' rel' G' reps'). Qed.
Print Assumptions C19_locality_independent.

(** C16: hence wrong products. *)
Theorem C16_odd_product_refuted N transposed bi br mws maxd rel G reps :
  (Z.of_nat N * Z.of_nat N < 2 ^ 62)%Z -> (0 <= mws < Z.of_nat N)%Z -> 3 <= G ->
  Nat.odd N = true -> (maxd <= Z.of_nat N * Z.of_nat N)%Z ->
  exists A B : list Z, length A = N * N /\ length B = N * N /\
    forall C, may_return (pseudodynamic_matrix_multiply N A B transposed br bi mws maxd rel G reps) C ->
      ~ is_matrix N (pentry transposed N A B) C.
Proof. exact (ps_odd_wrong N transposed bi br mws maxd rel G reps). Qed.
Print Assumptions C16_odd_product_refuted.
