(** Determinism of race-free programs. *)
From Verif Require Import Tools.
From Verif Require Export SpecDet.

Lemma drf_deterministic {T A} (p : prog T A) : drf p -> deterministic p.
Proof.
  intros Hd. destruct (run p ∅) as [[a m]|e] eqn:E.
  - left. exists a. by eapply always_intro.
  - right. eapply drf_must_fail; [done|apply err_in_True|done].
Qed.
