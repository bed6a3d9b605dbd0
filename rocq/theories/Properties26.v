(** C86: schedules keep their shape when the matrix grows, and which numbers of
    localities get equal shares. *)
From Coq Require Import ZArith.
From stdpp Require Import list.
From Verif Require Import MSchedule SpecSched SpecScale PScale PScale2 PScale3 MCeil MDouble MBalance.
Local Open Scope Z_scope.

(** C86: for a matrix c times as large the schedule is the same picture drawn c
    times as large, if min_work_size grows with c and max_work_difference with c^2
    (both up to rounding). *)
Theorem C86_scale c N mws maxd rel rel' fuel L : 0 < c -> 0 <= N -> (c * N) * (c * N) < 2 ^ 62 -> 0 <= mws ->
  even_chain N (mws / c) -> (forall d m, 0 <= d <= N * N -> 0 < m <= N * N -> rel' (c * c * d) (c * c * m) = rel d m) ->
  create_schedule_state (c * N) mws maxd rel' fuel L =
  match create_schedule_state N (mws / c) ((maxd + c * c - 1) / (c * c)) rel fuel L with
  | Ok s => Ok (scale c s) | Fail e => Fail e end.
Proof. apply schedule_scale. Qed.

(** C86: the comparison in doubles does not disturb that while N^2 is below 2^53. *)
Theorem C86_scale_doubles c N mws maxd b fuel L : finite64 b = true -> 0 < c -> 0 <= N -> (c * N) * (c * N) < 2 ^ 53 -> 0 <= mws ->
  even_chain N (mws / c) ->
  create_schedule_state (c * N) mws maxd (rel64 b) fuel L =
  match create_schedule_state N (mws / c) ((maxd + c * c - 1) / (c * c)) (rel64 b) fuel L with
  | Ok s => Ok (scale c s) | Fail e => Fail e end.
Proof. apply schedule_scale_doubles. Qed.

(** C86: lowering min_work_size changes nothing if no package is that small. *)
Theorem C86_min_work_size N mws1 mws2 maxd rel fuel L s : 0 <= N -> N * N < 2 ^ 62 -> 0 <= mws1 <= mws2 ->
  create_schedule_state N mws2 maxd rel fuel L = Ok s -> (forall w, w ∈ concat (all_work s) -> mws2 < wN w) ->
  create_schedule_state N mws1 maxd rel fuel L = Ok s.
Proof. intros HN HN2 [H1 H2]. by apply state_same. Qed.

(** C86: with 2^e localities the requested balance is reached, or all localities
    have the same work, or every most loaded one has a package of min_work_size or
    less. *)
Theorem C86_power_of_two e N mws maxd rel fuel s : 0 <= N -> N * N < 2 ^ 62 -> 0 <= mws -> even_chain N mws ->
  create_schedule_state N mws maxd rel fuel (2 ^ e) = Ok s ->
  balanced maxd rel (total_work s) \/ (forall t, t ∈ total_work s -> 2 ^ Z.of_nat e * t = N * N) \/
  exists mx, is_max mx (total_work s) /\
    forall k, total_work s !! k = Some mx -> exists ws w, all_work s !! k = Some ws /\ w ∈ ws /\ wN w <= mws.
Proof. intros HN HN2 Hm. by apply schedule_pow2. Qed.

(** C86: 1, 2, 4, 8, 16, 32, 64 or 128 localities get equal shares of every matrix
    whose size is a multiple of twice their number and more than their number times
    min_work_size, unless the requested balance is reached before. *)
Theorem C86_equal_shares e N mws maxd rel fuel s : (e <= 7)%nat -> (2 ^ Z.of_nat (S e) | N) -> N * N < 2 ^ 62 ->
  0 <= mws -> 2 ^ Z.of_nat e * mws < N -> create_schedule_state N mws maxd rel fuel (2 ^ e) = Ok s ->
  balanced maxd rel (total_work s) \/ forall t, t ∈ total_work s -> 2 ^ Z.of_nat e * t = N * N.
Proof. apply schedule_perfect. Qed.

(** C86: that this goes on for further powers of two is refuted: 256 localities
    never share a matrix of 512 c rows equally, although equal shares exist. *)
Theorem C86_equal_shares_refuted c : 0 < c -> (512 * c) * (512 * c) < 2 ^ 62 ->
  exists s, create_schedule_state (512 * c) (2 * c - 1) 0 (fun _ _ => false) 1300 256 = Ok s /\
    c * c * 1028 ∈ total_work s /\ c * c * 1018 ∈ total_work s.
Proof. apply schedule_256_uneven. Qed.

Print Assumptions C86_scale.
Print Assumptions C86_scale_doubles.
Print Assumptions C86_min_work_size.
Print Assumptions C86_power_of_two.
Print Assumptions C86_equal_shares.
Print Assumptions C86_equal_shares_refuted.
