(** C85: how evenly create_schedule spreads the work. *)
From Coq Require Import ZArith Reals.
From Flocq Require Import Core IEEE754.Binary IEEE754.Bits.
From Verif Require Import Spec Conc MSchedule SpecSched SpecBalance PBalance PBalance2 MCeil MDouble MBalance SpecRound.
Local Open Scope Z_scope.

Section Props.
  Context (N mws maxd : Z) (rel : Z -> Z -> bool) (fuel L : nat).
  Context (HN : 0 <= N) (HN2 : N * N < 2 ^ 62) (Hmws : 0 <= mws).
  (** C85: on return the requested balance is reached, or the least loaded locality
      has more than half of the work of the most loaded one and none has twice its
      share, or min_work_size forbids to split what the most loaded ones have. *)
  Theorem C85_within_factor_two s : create_schedule_state N mws maxd rel fuel L = Ok s ->
    balanced maxd rel (total_work s) \/
    exists mn mx, is_min mn (total_work s) /\ is_max mx (total_work s) /\
      ((mx < 2 * mn /\ Z.of_nat L * mx < 2 * (N * N)) \/
       (forall i ws w, total_work s !! i = Some mx -> all_work s !! i = Some ws -> w ∈ ws -> wN w <= mws)).
  Proof. exact (schedule_factor N mws maxd rel HN HN2 Hmws fuel L s). Qed.
  (** C85: a locality has no package or at least two, unless nothing was split. *)
  Theorem C85_packages_in_pairs all : create_schedule N mws maxd rel fuel L = Ok all ->
    all = [Work 0 0 N] :: replicate (L - 1) [] \/ forall ws, ws ∈ all -> ws = [] \/ (2 <= length ws)%nat.
  Proof. exact (schedule_pairs N mws maxd rel fuel L all). Qed.
  (** C85: the number of localities with work is bounded, however many there are. *)
  Theorem C85_busy_bound all : create_schedule N mws maxd rel fuel L = Ok all ->
    (busy all <= 1)%nat \/ 2 * Z.of_nat (busy all) * ((mws + 1) / 2 * ((mws + 1) / 2)) <= N * N.
  Proof.
    intros E. destruct (Z.lt_ge_cases mws N) as [Hlt|Hge].
    - apply (schedule_busy N mws maxd rel HN HN2 Hmws fuel L all ((mws + 1) / 2) E); [apply Z.div_pos; lia|].
      intros n. exact (size_half N mws Hmws n Hlt).
    - left. destruct L as [|n]; [discriminate|]. destruct fuel as [|f]; [discriminate|].
      rewrite (schedule_small N mws maxd rel HN HN2 Hmws (S f) (S n) Hge) in E by lia. injection E as <-. apply busy_one.
  Qed.
  Theorem C85_busy_bound_power e all : N = 2 ^ Z.of_nat e * mws -> create_schedule N mws maxd rel fuel L = Ok all ->
    (busy all <= 1)%nat \/ 2 * Z.of_nat (busy all) * (mws * mws) <= N * N.
  Proof. intros HE E. exact (schedule_busy N mws maxd rel HN HN2 Hmws fuel L all mws E Hmws (fun n => size_chain N mws HN Hmws e n HE)). Qed.
  (** C85: that the work is distributed is refuted for N up to min_work_size (256 if
      not given): one locality does everything. *)
  Theorem C85_distributed_refuted : N <= mws -> (0 < L)%nat -> (0 < fuel)%nat ->
    create_schedule N mws maxd rel fuel L = Ok ([Work 0 0 N] :: replicate (L - 1) []).
  Proof. exact (schedule_small N mws maxd rel HN HN2 Hmws fuel L). Qed.
End Props.
(** C85: two localities share an even matrix equally. *)
Theorem C85_two_localities h mws maxd rel fuel : 0 < h -> (2 * h) * (2 * h) < 2 ^ 62 -> 1 <= mws < 2 * h -> maxd <= (2 * h) * (2 * h) -> (1 < fuel)%nat ->
  create_schedule_state (2 * h) mws maxd rel fuel 2 =
    Ok (Sched [[Work 0 0 h; Work h 0 h]; [Work 0 h h; Work h h h]] [2 * (h * h); 2 * (h * h)]).
Proof. exact (two_localities h mws maxd rel fuel). Qed.
(** C85: the comparison in doubles never accepts what misses the bound, and accepts
    what is below it by more than two roundings. *)
Theorem C85_relative_criterion b d m : finite64 b = true -> 0 <= d < 2 ^ 53 -> 0 < m < 2 ^ 53 ->
  (rel64 b d m = true -> (IZR d / IZR m < val64 b)%R) /\
  ((0 < val64 b)%R -> (IZR d / IZR m <= val64 b * (1 - 2 * uro))%R -> rel64 b d m = true).
Proof. intros Hb Hd Hm. split; [exact (rel64_sound b d m Hb Hd Hm)|exact (rel64_complete b d m Hb Hd Hm)]. Qed.
(** C85: the guarantee of a returned schedule, in numbers. *)
Theorem C85_guarantee N mws maxd b fuel L s : 0 <= N -> N * N < 2 ^ 53 -> 0 <= mws -> finite64 b = true ->
  create_schedule_state N mws maxd (rel64 b) fuel L = Ok s ->
  exists mn mx, is_min mn (total_work s) /\ is_max mx (total_work s) /\
    (mx - mn < maxd \/ (0 < mn /\ (IZR (mx - mn) / IZR mn < val64 b)%R) \/ (mx < 2 * mn /\ Z.of_nat L * mx < 2 * (N * N)) \/
     (forall i ws w, total_work s !! i = Some mx -> all_work s !! i = Some ws -> w ∈ ws -> wN w <= mws)).
Proof. exact (schedule_relative N mws maxd b fuel L s). Qed.
(** C85: that the bound is in percent, as --help says, is refuted: a bound of 5 is
    taken for reached where the least loaded locality has a quarter of the work of the
    most loaded one and packages can still be split; a bound of 0.05 gives two thirds. *)
Theorem C85_percent_refuted :
  (exists s, create_schedule_state 4 1 0 (rel64 (double_of 5)) 100 3 = Ok s /\
    is_min 2 (total_work s) /\ is_max 8 (total_work s) /\ ~ stuck 1 s) /\
  (exists s, create_schedule_state 4 1 0 (rel64 five_percent) 100 3 = Ok s /\ is_min 4 (total_work s) /\ is_max 6 (total_work s)).
Proof. split; [exact percent_witness|exact better_schedule]. Qed.
Print Assumptions C85_within_factor_two.
Print Assumptions C85_packages_in_pairs.
Print Assumptions C85_busy_bound.
Print Assumptions C85_busy_bound_power.
Print Assumptions C85_distributed_refuted.
Print Assumptions C85_two_localities.
Print Assumptions C85_relative_criterion.
Print Assumptions C85_guarantee.
Print Assumptions C85_percent_refuted.
