(** Specification of independence of the schedule. *)
From Verif Require Export Conc.

(** Either every schedule is race free and returns one and the same value, or
    no schedule returns a value at all. *)
Definition deterministic {T A} (p : prog T A) : Prop :=
  (exists a, always p (fun x => x = a)) \/ must_fail (fun _ => True) p ∅.
