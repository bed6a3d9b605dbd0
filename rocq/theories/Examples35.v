(** Instances of the theorems of Properties35. *)
From Coq Require Import ZArith Reals String.
From Flocq Require Import Core IEEE754.Binary IEEE754.Bits.
From Verif Require Import Base Conc Num Spec MCeil MDouble MPrint MTranscript Examples10 Examples11 Examples15 Examples21 Examples24 Examples28 MVerbose MApp SpecApp SpecTranscript SpecVerbose Properties35.
Local Open Scope nat_scope.

Example ex_C88_reference := C88_reference o_semi mod7 (fun i _ => mod7_good i).
(** Two results that differ: the difference is printed, and the check fails. *)
Definition o_two : options := some_options 2 2 2 true true 1 "single" 1.
Definition ones : list binary64 := replicate 4 (double_of 1).
Definition spoilt : list binary64 := [double_of 1; double_of 3; double_of 1; double_of 1].
Example ex_C88_differences := C88_differences o_two spoilt ones eq_refl eq_refl.
Example ex_spoilt : exists D, diff_matrix absdiff64 o_two spoilt ones = Ret D /\
  put (matrix_chunks o_two (by_rows o_two) D) = put ["0, 2"; newline; "0, 0"; newline]%string /\ equal_results absdiff64 small64 spoilt ones = false.
Proof.
  destruct ex_C88_differences as (D&HD&Hp&_). exists D. split; [exact HD|]. split; [|vm_compute; reflexivity].
  refine (eq_trans Hp _). vm_compute. reflexivity.
Qed.
