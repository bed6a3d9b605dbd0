(** How evenly a schedule spreads the work. *)
From Verif Require Export MSchedule SpecSched.

(** The number of localities that have something to do *)
Definition busy (all : list (list work)) : nat := length (filter (fun ws => ws <> []) all).
