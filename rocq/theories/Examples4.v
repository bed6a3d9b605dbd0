(** Concrete cases for C36. *)
From Coq Require Import ZArith.
From Verif Require Import Base MIter MCeil PCeil Properties4.
Example ex_C36 : block_count_double 1000 7 = Ok 143%Z.
Proof. by vm_compute. Qed.
Example ex_C36_large : block_count_double (2 ^ 53 - 1) (2 ^ 53 - 2) = Ok 2%Z.
Proof. by vm_compute. Qed.
Example ex_C36_hyp : exists c, block_count_double (2 ^ 53 - 1) 3 = Ok c /\ ((c - 1) * 3 < 2 ^ 53 - 1 <= c * 3)%Z.
Proof. apply C36_double_ceil_exact; split; reflexivity || discriminate. Qed.
Example ex_C36_zero : block_count_double 0 0 = Fail EOverflow.
Proof. apply C36_double_zero_block. split; reflexivity || discriminate. Qed.
