(** Schedules drawn to another scale. *)
From Verif Require Export MSchedule SpecSched.
Local Open Scope Z_scope.

(** A package c times as large at c times the position *)
Definition scale_work (c : Z) (w : work) : work := Work (c * wx w) (c * wy w) (c * wN w).
(** Every package so, and c^2 times the recorded work *)
Definition scale (c : Z) (s : sched) : sched :=
  Sched (map (map (scale_work c)) (all_work s)) (map (Z.mul (c * c)) (total_work s)).
