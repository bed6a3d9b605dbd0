(** Non-trivial instances of the theorems in Properties16.v. *)
From Coq Require Import ZArith Reals Psatz.
From Flocq Require Import Core IEEE754.Binary IEEE754.Bits.
From Verif Require Import Base Conc ConcFacts Num Spec SpecTiled SpecSched SpecApp SpecRound SpecContract MCeil MDouble MContract PDouble PApp2 PContract3.
From Verif Require Import Examples10 Examples11 Properties16 MApp.

Example ex_C68_order := C68_same_order o_semi 1 Semi eq_refl semi_suits.
Example ex_C68_error_semi := C68_contracted_error 8 M8 M8 o_semi 1 Semi eq_refl eq_refl eq_refl eq_refl semi_suits.
Example ex_C68_error_tiled := C68_contracted_error 8 M8 M8 o_tiled 1 KernelTiled eq_refl eq_refl eq_refl I tiled_suits.
Example ex_C68_agree := C68_contracted_agree 8 M8 M8 o_single o_tiled 1 1 Single KernelTiled eq_refl eq_refl M8_unit M8_unit
  ltac:(lia) eq_refl eq_refl I I single_suits tiled_suits eq_refl.
Example ex_C68_uncontracted := C68_uncontracted 8 M8 M8 o_alg 1 Algorithms eq_refl eq_refl eq_refl eq_refl alg_suits.
(** The relation between terms and doubles is neither empty nor a function: half
    of the products fused, the others not. *)
Example ex_C68_compiled : compiled (TAdd (TAdd (TNum nzero) (TMul (TNum tenth) (TNum tenth))) (TMul (TNum Examples11.half) (TNum tenth)))
  (b64_fma rne Examples11.half tenth (nadd nzero (nmul tenth tenth))).
Proof. apply compiled_fma_r; [apply compiled_add; [|apply compiled_mul]|..]; apply compiled_num. Qed.
Example ex_C68_two_values :
  b64_fma rne witness_x witness_x witness_q <> nadd witness_q (nmul witness_x witness_x).
Proof. intros E. apply (f_equal (B2FF 53 1024)) in E. vm_compute in E. discriminate. Qed.
Notation o_two := (opt 2 false 2 2 1 1 "single").
Lemma two_suits : suitable o_two 1 Single.
Proof.
  split; [cbn; lia|]. exists 1, 1. split; [reflexivity|]. split; [cbn; lia|]. split; [right; cbn; lia|].
  intros [=].
Qed.
Example ex_C68_bits := C68_same_bits_refuted o_two 1 eq_refl eq_refl two_suits.
