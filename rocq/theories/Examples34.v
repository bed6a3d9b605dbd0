(** Instances of the theorems of Properties34. *)
From Coq Require Import ZArith NArith Reals Ascii String.
From stdpp Require Import list.
From Flocq Require Import Core IEEE754.Binary IEEE754.Bits.
From Verif Require Import Base MCeil MDouble MPrint SpecPrint SpecSched MCmdline SpecCmdline SpecCmdline3 Properties34.

Example ex_C81_zero : show64 6 (B754_zero 53 1024 true) = "-0"%string /\ show64 6 (double_of 0) = "0"%string.
Proof. split; [exact (C81_zero 6 (B754_zero 53 1024 true) eq_refl eq_refl)|exact (C81_zero 6 (double_of 0) eq_refl eq_refl)]. Qed.

(** Nine localities and a matrix of size 6 *)
Example ex_C86_nine := C86_equal_shares_exist 3 2 eq_refl.
Example ex_C86_missed := C86_equal_shares_missed 1 eq_refl.

Local Open Scope string_scope.
Section Line.
  Context (strtod : string -> option binary64) (accepts : string -> bool).
  Example short_block : parse strtod accepts [] ["--block-i=32"; "--max-w"; "7"] = Parsed [("max-work-difference", VUnsigned 7); ("block-input", VUnsigned 32)].
  Proof.
    rewrite (proj1 (C87_shortened strtod accepts "block-input" "block-i" "block-i" "=32" ltac:(do 5 apply elem_of_list_further; apply elem_of_list_here)
      (ex_intro _ "nput" eq_refl) (or_intror (ex_intro _ "32" eq_refl))) (ex_intro _ "" eq_refl)).
    reflexivity.
  Qed.
  Example too_short : parse strtod accepts [] ["--block-=32"] = Rejected /\ parse strtod accepts [] ["--h"] = Rejected.
  Proof.
    split.
    - apply (C87_shortened strtod accepts "block-input" "block-i" "block-" "=32" ltac:(do 5 apply elem_of_list_further; apply elem_of_list_here)
        (ex_intro _ "input" eq_refl) (or_intror (ex_intro _ "32" eq_refl))); [|discriminate]. intros [q Hq]. discriminate Hq.
    - apply (C87_shortened strtod accepts "help" "he" "h" "" ltac:(do 11 apply elem_of_list_further; apply elem_of_list_here)
        (ex_intro _ "elp" eq_refl) (or_introl eq_refl)); [|discriminate]. intros [q Hq]. discriminate Hq.
  Qed.
End Line.
