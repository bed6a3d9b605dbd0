(** Cases for Properties36. *)
From Coq Require Import ZArith Reals String Ascii.
From Flocq Require Import IEEE754.Binary IEEE754.Bits.
From Verif Require Import Base MLearn SpecLearn SpecLearn2 MDouble MTests Properties36.
Local Open Scope nat_scope.

Example ex_C78_numbers : numeral 107 "107" /\ numeral 0 "0" /\ show 107 = "107"%string /\ ~ numeral 7 "07".
Proof.
  split_and!; [apply C78_numbers; reflexivity|apply C78_numbers; reflexivity|apply C78_numbers, C78_numbers; reflexivity|].
  intros H. apply C78_numbers in H. discriminate.
Qed.

(** -0.945977686435702, the first literal of the inverse in apply_inverse_8, has no exact double. *)
Example ex_C70_literals y : finite64 y = true ->
  (Rabs (val64 (double_literal (Dec (-945977686435702) 15)) - IZR (-945977686435702) / IZR (10 ^ 15)) <= Rabs (val64 y - IZR (-945977686435702) / IZR (10 ^ 15)))%R.
Proof.
  refine (proj2 (C70_literals (Case "algorithms" "apply_inverse_8" 126 8 (Literal inverse_A8) (Transposed_literal inverse_B8) "algorithms" true 1 1 Ref_identity (Check_small (Dec 1 8)))
    inverse_B8 (Dec (-945977686435702) 15) _ _ _) y).
  - apply (elem_of_list_lookup_2 _ 2). reflexivity.
  - right. right. right. reflexivity.
  - apply elem_of_list_here.
Qed.
