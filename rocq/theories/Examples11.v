(** Non-trivial instances of the theorems in Properties11.v, on doubles. *)
From Coq Require Import ZArith Reals Psatz.
From Flocq Require Import Core IEEE754.Binary IEEE754.Bits.
From Verif Require Import Base Conc ConcFacts Num Spec SpecTiled SpecSched SpecApp SpecRound MCeil MDouble PDouble PApp2.
From Verif Require Import Properties10 Examples10 Properties11 MApp.

(** 1/2, the double nearest to 1/10, and a mixture of both. *)
Definition half : binary64 := B754_finite 53 1024 false 4503599627370496 (-53) eq_refl.
Definition tenth : binary64 := B754_finite 53 1024 false 7205759403792794 (-56) eq_refl.
Definition gen64 (k : nat) : binary64 := if Nat.even k then tenth else half.
Definition M8 : list binary64 := gen64 <$> seq 0 64.
Lemma half_value : val64 half = (/ 2)%R.
Proof. unfold half, B2R, F2R. cbn [Fnum Fexp cond_Zopp]. rewrite (bp 53). change (2 ^ 53)%Z with 9007199254740992%Z. lra. Qed.
Lemma tenth_value : (0 <= val64 tenth <= 1)%R.
Proof. unfold tenth, B2R, F2R. cbn [Fnum Fexp cond_Zopp]. rewrite (bp 56). change (2 ^ 56)%Z with 72057594037927936%Z. lra. Qed.
Lemma M8_unit : unit_entries M8.
Proof.
  intros x (k&->&_)%elem_of_list_fmap. unfold gen64. pose proof tenth_value. pose proof half_value.
  destruct (Nat.even k); (split; [reflexivity|]); rewrite Rabs_pos_eq; lra.
Qed.
(** Different orders of summation do give different doubles. *)
Example ex_B64_rounds : dot (fun _ => tenth) (seq 0 10) <> dot_chunks 5 (fun _ => tenth) 10.
Proof. intros E. apply (f_equal (B2FF 53 1024)) in E. vm_compute in E. discriminate. Qed.

Notation o_semi := (opt 8 true 1 2 3 2 "semi").
Notation o_alg := (opt 8 true 1 2 4 4 "algorithms").
Notation o_single := (opt 8 false 2 2 4 4 "single").
Notation o_tiled := (opt 8 true 3 2 4 4 "kernel_tiled").
Lemma semi_suits : suitable o_semi 1 Semi.
Proof. split_and!; [cbn; lia|exists 2; reflexivity|exists 4; reflexivity]. Qed.
Lemma alg_suits : suitable o_alg 1 Algorithms.
Proof. split_and!; [cbn; lia|cbn; lia|exists 2; reflexivity|exists 2; reflexivity]. Qed.
Lemma single_suits : suitable o_single 1 Single.
Proof.
  split; [cbn; lia|]. exists 4, 1. split; [reflexivity|]. split; [cbn; lia|]. split; [right; cbn; lia|].
  intros [=].
Qed.
Lemma tiled_suits : suitable o_tiled 1 KernelTiled.
Proof. cbn. lia. Qed.

Example ex_C49_orders := C49_orders o_semi 1 Semi M8 M8 eq_refl eq_refl eq_refl semi_suits.
Example ex_C49_error_semi := C49_rounding_error 8 M8 M8 o_semi 1 Semi eq_refl eq_refl eq_refl eq_refl semi_suits.
Example ex_C49_error_tiled := C49_rounding_error 8 M8 M8 o_tiled 1 KernelTiled eq_refl eq_refl eq_refl I tiled_suits.
(** The bound is far below the magnitude of the entries. *)
Example ex_C49_bound : (error_bound false 1 [half] [half] 0 0 <= / 1000000000000)%R.
Proof.
  change (((1 + uro) * ((1 + uro) * ((1 + uro) * 1)) - 1) * (Rabs (val64 half * val64 half) + 0) +
    1 * tiny * ((1 + uro) * ((1 + uro) * ((1 + uro) * 1))) <= / 1000000000000)%R. rewrite half_value, Rabs_pos_eq by lra. unfold uro, tiny.
  rewrite (bp 53). change (2 ^ 53)%Z with 9007199254740992%Z.
  assert (0 < bpow radix2 (-1075) <= / 1267650600228229401496703205376)%R.
  { split; [apply bpow_gt_0|]. apply Rle_trans with (bpow radix2 (-100)); [apply bpow_le; lia|]. rewrite (bp 100). apply Req_le. reflexivity. }
  lra.
Qed.
Example ex_C49_agree_transposed := C49_variants_agree 8 M8 M8 o_semi o_alg 1 1 Semi Algorithms eq_refl eq_refl M8_unit M8_unit
  ltac:(lia) eq_refl eq_refl eq_refl eq_refl semi_suits alg_suits eq_refl.
Example ex_C49_agree := C49_variants_agree 8 M8 M8 o_single o_tiled 1 1 Single KernelTiled eq_refl eq_refl M8_unit M8_unit
  ltac:(lia) eq_refl eq_refl I I single_suits tiled_suits eq_refl.
Example ex_C49_check := C49_check_succeeds 8 M8 M8 o_semi 1 Semi eq_refl eq_refl M8_unit M8_unit ltac:(lia) eq_refl eq_refl semi_suits.

(** C47: entries just inside and just outside the tolerance, NaN, infinity. *)
Example ex_C47_inside : small64 (absdiff64 (B754_finite 53 1024 false 7737125245533626 (-86) eq_refl) nzero) = true.
Proof. vm_compute. reflexivity. Qed.
Example ex_C47_outside : small64 (absdiff64 tolerance nzero) = false.
Proof. vm_compute. reflexivity. Qed.
Example ex_C47_infinite : small64 (absdiff64 (B754_infinity 53 1024 true) (B754_infinity 53 1024 true)) = false.
Proof. apply C47_nan_infinite_rejected. left. reflexivity. Qed.
Example ex_C47_close := C47_accepted_is_close _ _ ex_C47_inside.
Example ex_C47_same := C47_identical_accepted tenth eq_refl.

(** C58 on doubles and, from it, a run with a positive verdict for C47. *)
Example ex_C58_double : app_always (tolerated Semi) (main absdiff64 small64 o_semi 1 gen64) (fun r => r = Outcome 0 false (Some true) M8).
Proof.
  apply (C58_end_to_end_double o_semi 1 gen64 Semi); [reflexivity|set_solver|reflexivity|exact semi_suits|].
  intros k _. unfold gen64. destruct (Nat.even k); split; reflexivity.
Qed.
Example ex_C47_run64 : app_ends (main absdiff64 small64 o_semi 1 gen64) (Ok (Outcome 0 false (Some true) M8)).
Proof. destruct (app_always_ends _ _ _ ex_C58_double) as (r & He & Hr). rewrite Hr in He. exact He. Qed.
Example ex_C47_positive := C47_positive_verdict o_semi 1 gen64 Semi _ eq_refl ltac:(set_solver) eq_refl eq_refl ex_C47_run64 eq_refl.

(** C19 on doubles: three localities, transposed, chunks of four. *)
Example ex_C19_any_order : exists f,
  always (pseudodynamic_matrix_multiply 8 M8 M8 true 4 4 4 10000 relz 3 2) (is_matrix 8 f) /\
  forall i j, i < 8 -> j < 8 -> exists ms, leaf_ok true 4 ms 8 /\ f i j = leaf_entry true 4 ms 8 M8 M8 i j.
Proof.
  apply C19_pseudodynamic_any_order; [reflexivity|lia|lia|lia|reflexivity|reflexivity| |].
  - intros n Hn Hlt. destruct (sizes_8_4 n Hn) as [->| ->]; [exists 4%Z; reflexivity|lia].
  - intros n Hn. destruct (sizes_8_4 n Hn) as [->| ->].
    + exists 4, 1. split; [reflexivity|]. split; [lia|]. split; [right; lia|].
      intros _ _ _. split; [exists 1; reflexivity|exists 2; reflexivity].
    + exists 4, 0. split; [reflexivity|]. split; [lia|]. split; [left; reflexivity|].
      intros _ _ _. split; [exists 1; reflexivity|exists 2; reflexivity].
Qed.
