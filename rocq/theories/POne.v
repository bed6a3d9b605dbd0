(** pseudodynamic on one computing locality: the schedule is one package, and the
    result is that of single. *)
From Verif Require Import Conc ConcFacts Spec SpecTiled SpecSched Tools MSchedule PSchedule PNaive PUtil PRecursive PPseudo PPseudo2.
Local Open Scope Z_scope.

Lemma one_schedule N mws maxd rel fuel : 2 <= N -> N * N < 2 ^ 62 ->
  create_schedule_state N mws maxd rel (S fuel) 1 = Ok (Sched [[Work 0 0 N]] [N * N]).
Proof.
  intros HN HN2. unfold create_schedule_state. cbn -[sched_loop u64]. rewrite u64_id by nia.
  cbn [sched_loop]. assert (sched_step mws maxd rel (Sched [[Work 0 0 N]] [N * N]) = Ok None) as ->; [|done].
  unfold sched_step. cbn -[u64 find_package]. rewrite Z.sub_diag. destruct (u64 0 <? maxd); [done|].
  assert (find_package mws [[Work 0 0 N]] (N * N) (N * N) [0%nat] = Ok None) as ->.
  { cbn -[u64 work_difference]. rewrite Z.sub_diag. destruct (Z.leb_spec N mws); [done|].
    destruct (work_difference_ok N HN2 (N * N) (N * N) (Work 0 0 N)) as [-> _]; [nia|cbn; nia|].
    unfold diff_after. cbn [wN]. cbn -[u64 Z.div Z.abs Z.mul]. rewrite (u64_id 0) by lia.
    pose proof (half_bounds (N * N)). set (h := N * N / 2) in *.
    rewrite u64_id by nia. destruct (Z.leb_spec (Z.abs (N * N - h - (N * N + h))) 0); [nia|done]. }
  by destruct (if (0 <? N * N) && (0 <? N * N) then rel (u64 0) (N * N) else false).
Qed.
Local Close Scope Z_scope.

Section One.
  Context {T : Type} `{NumOps T}.
  Context (N : nat) (A B : list T) (transposed : bool) (bi br : nat).
  Context (mws maxd : Z) (rel : Z -> Z -> bool) (G reps : nat).
  Lemma ps_one : (Z.of_nat N * Z.of_nat N < 2 ^ 62)%Z -> 2 <= N -> G = 1 \/ G = 2 ->
    pseudodynamic_matrix_multiply N A B transposed br bi mws maxd rel G reps =
      body N A B transposed bi br [Work 0 0 (Z.of_nat N)] reps.
  Proof.
    intros HN2 HN HG. unfold pseudodynamic_matrix_multiply, static_improved_matrix_multiply.
    assert ((if 1 <? G then G - 1 else G) = 1) as -> by (destruct HG as [->| ->]; done).
    unfold create_schedule. rewrite one_schedule by lia. done.
  Qed.
  Lemma ps_one_always ms d : (Z.of_nat N * Z.of_nat N < 2 ^ 62)%Z -> 2 <= N -> G = 1 \/ G = 2 -> 0 < reps ->
    length A = N * N -> length B = N * N ->
    N = ms * 2 ^ d -> ms <= br -> d = 0 \/ br < 2 * ms -> leaf_ok transposed bi ms N ->
    always (pseudodynamic_matrix_multiply N A B transposed br bi mws maxd rel G reps) (is_matrix N (leaf_entry transposed bi ms N A B)).
  Proof.
    intros HN2 HN HG Hreps HA HB Hms Hbr Hd Hok. rewrite ps_one by done.
    assert (Hin : Forall (inside (Z.of_nat N)) [Work 0 0 (Z.of_nat N)]).
    { repeat constructor; cbn; lia. }
    assert (Hh : forall i j, hits i j [Work 0 0 (Z.of_nat N)] <= 1).
    { intros i j. unfold hits. etransitivity; [apply filter_length|]. done. }
    destruct (body_run N A B transposed bi br (leaf_entry transposed bi ms N A B) HA HB [Work 0 0 (Z.of_nat N)] reps) as (C&m&HC&Hm).
    - done.
    - done.
    - repeat constructor. exists ms, d. cbn [wN]. rewrite Nat2Z.id. done.
    - intros i j Hi Hj. unfold hits. rewrite filter_cons_True; [cbn; lia|]. split; cbn; lia.
    - eapply always_intro; [by apply body_drf|exact HC|]. by rewrite decide_False in Hm by lia.
  Qed.
End One.
Lemma one_locality {T} `{NumOps T} N (A B : list T) transposed bi br mws maxd rel G reps ms d :
  (Z.of_nat N * Z.of_nat N < 2 ^ 62)%Z -> 2 <= N -> G = 1 \/ G = 2 -> 0 < reps -> length A = N * N -> length B = N * N ->
  N = ms * 2 ^ d -> ms <= br -> d = 0 \/ br < 2 * ms -> leaf_ok transposed bi ms N ->
  always (pseudodynamic_matrix_multiply N A B transposed br bi mws maxd rel G reps) (is_matrix N (leaf_entry transposed bi ms N A B)) /\
  always (single_matrix_multiply N A B transposed bi br reps) (is_matrix N (leaf_entry transposed bi ms N A B)).
Proof.
  intros H1 H2 H3 H4 H5 H6 H7 H8 H9 H10. split; [by eapply ps_one_always|].
  exact (single_always N A B transposed bi br ms d reps H5 H6 H7 H8 H9 H10 H4).
Qed.
