(** How far the name of each option can be shortened. *)
From Coq Require Import String.
From stdpp Require Import list.
Local Open Scope string_scope.

Definition shortest : list (string * string) :=
  [("n-value", "n"); ("transposed", "t"); ("repetitions", "r"); ("verbose", "v"); ("block-result", "block-r");
   ("block-input", "block-i"); ("check", "c"); ("algorithm", "a"); ("min-work-size", "mi"); ("max-work-difference", "max-w");
   ("max-relative-work-difference", "max-r"); ("help", "he")].
