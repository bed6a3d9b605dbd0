(** Non-trivial instances of the theorems in Properties32.v. *)
From Coq Require Import ZArith Reals Psatz.
From Flocq Require Import Core IEEE754.Binary IEEE754.Bits.
From Verif Require Import Base Conc ConcFacts Num Spec SpecTiled SpecSched SpecRound SpecContract MCeil MDouble MContract PDouble PApp2.
From Verif Require Import Examples10 Examples11 Examples15 Examples16 PRound2 PSpecial2 Properties32 SpecSpecial MApp SpecApp.

(** A matrix with one infinity, in row 1. *)
Definition M8_inf : list binary64 := <[8 := inf64]> M8.
Lemma M8_inf_row : same_inputs true 8 0 3 M8 M8 M8_inf M8.
Proof. intros k Hk. split; [|done]. unfold ent, M8_inf. rewrite list_lookup_insert_ne by lia. done. Qed.
(** Entry (0, 3) is the same with and without it. *)
Example ex_C91_confined := C91_confined o_semi 1 Semi M8 M8 M8_inf M8 0 3 eq_refl eq_refl eq_refl eq_refl eq_refl semi_suits
  ltac:(cbn; lia) ltac:(cbn; lia) M8_inf_row.
(** Entry (1, 0) is not finite. *)
Lemma M8_inf_not_finite : ~ finite_inputs true 8 1 0 M8_inf M8.
Proof. intros H. destruct (H 0 ltac:(lia)) as [E _]. vm_compute in E. discriminate. Qed.
Example ex_C91_inf : always_tol (tolerated Semi) (computation o_semi 1 Semi (TNum <$> M8_inf) (TNum <$> M8))
  (fun D => forall C, Forall2 compiled D C -> exists c, C !! 8 = Some c /\ finite64 c = false).
Proof.
  eapply must_mono; [|exact (C91_finite o_semi 1 Semi M8_inf M8 eq_refl eq_refl eq_refl semi_suits)].
  intros D m HD C HC. destruct (HD C HC 1 0 ltac:(cbn; lia) ltac:(cbn; lia)) as (c&Hc&Hf). exists c. split; [exact Hc|].
  destruct (finite64 c); [|done]. destruct (M8_inf_not_finite (Hf eq_refl)).
Qed.
Definition nan_64 : binary64 := B754_nan 53 1024 false 1 eq_refl.
Definition M8_nan : list binary64 := <[8 := nan_64]> M8.
Lemma M8_has_nan : nan_input true 8 1 5 M8_nan M8.
Proof. exists 0. split; [lia|left]. vm_compute. reflexivity. Qed.
Example ex_C91_nan : always_tol (tolerated Semi) (computation o_semi 1 Semi (TNum <$> M8_nan) (TNum <$> M8))
  (fun D => forall C, Forall2 compiled D C -> exists c, C !! 13 = Some c /\ nan64 c = true).
Proof.
  eapply must_mono; [|exact (C91_nan o_semi 1 Semi M8_nan M8 eq_refl eq_refl eq_refl semi_suits)].
  intros D m HD C HC. exact (HD C HC 1 5 ltac:(cbn; lia) ltac:(cbn; lia) M8_has_nan).
Qed.
(** Entries that cannot overflow. *)
Lemma M8_magnitude i j : i < 8 -> j < 8 -> (magnitude false 8 M8 M8 i j <= bpow radix2 1022)%R.
Proof.
  intros Hi Hj. apply Rle_trans with 8%R.
  - unfold magnitude.
    assert (H1 : forall i j, i < 8 -> j < 8 -> (Rabs (val64 (ent 8 M8 i j)) <= 1)%R).
    { intros a b Ha Hb. apply M8_unit. unfold ent. destruct (M8 !! (a * 8 + b)) as [x|] eqn:E; [by eapply elem_of_list_lookup_2|].
      apply lookup_ge_None_1 in E. unfold M8 in E. rewrite fmap_length, seq_length in E. lia. }
    unfold factor_b, rsum. cbn [seq foldr].
    assert (H2 : forall k, k < 8 -> (Rabs (val64 (ent 8 M8 i k) * val64 (ent 8 M8 k j)) <= 1)%R).
    { intros k Hk. rewrite Rabs_mult. pose proof (H1 i k Hi Hk). pose proof (H1 k j Hk Hj).
      pose proof (Rabs_pos (val64 (ent 8 M8 i k))). pose proof (Rabs_pos (val64 (ent 8 M8 k j))). nra. }
    pose proof (H2 0 ltac:(lia)). pose proof (H2 1 ltac:(lia)). pose proof (H2 2 ltac:(lia)). pose proof (H2 3 ltac:(lia)).
    pose proof (H2 4 ltac:(lia)). pose proof (H2 5 ltac:(lia)). pose proof (H2 6 ltac:(lia)). pose proof (H2 7 ltac:(lia)).
    lra.
  - change 8%R with (bpow radix2 3). apply bpow_le. lia.
Qed.
Example ex_C91_no_overflow : always_tol (tolerated KernelTiled) (computation o_tiled 1 KernelTiled (TNum <$> M8) (TNum <$> M8))
  (fun D => forall C, Forall2 compiled D C -> forall i j, i < 8 -> j < 8 -> exists c, C !! (i * 8 + j) = Some c /\ finite64 c = true).
Proof.
  eapply must_mono; [|exact (C91_no_overflow o_tiled 1 KernelTiled M8 M8 eq_refl eq_refl I tiled_suits ltac:(cbn; lia))].
  intros D m HD C HC i j Hi Hj. destruct (HD C HC i j Hi Hj) as (c&Hc&Hf); [exact (M8_magnitude i j Hi Hj)|].
  exists c. split; [exact Hc|]. apply Hf. intros k Hk. cbn [o_n] in Hk.
  assert (HM : forall a b, a < 8 -> b < 8 -> finite64 (ent 8 M8 a b) = true).
  { intros a b Ha Hb. apply M8_unit. unfold ent. destruct (M8 !! (a * 8 + b)) as [x|] eqn:E; [by eapply elem_of_list_lookup_2|].
    apply lookup_ge_None_1 in E. unfold M8 in E. rewrite fmap_length, seq_length in E. lia. }
  split; [exact (HM i k Hi Hk)|exact (HM k j Hk Hj)].
Qed.
Example ex_C91_no_minus_zero := C91_no_minus_zero o_tiled 1 KernelTiled M8 M8 eq_refl eq_refl I tiled_suits.
Notation o_one := (opt 1 false 1 1 1 1 "single").
Lemma one_suits : suitable o_one 1 Single.
Proof.
  split; [cbn; lia|]. exists 1, 0. split; [reflexivity|]. split; [cbn; lia|]. split; [right; cbn; lia|].
  intros [=].
Qed.
Example ex_C91_fused := C91_minus_zero_fused_refuted o_one 1 eq_refl eq_refl one_suits.
Notation o_four := (opt 4 true 1 1 2 2 "algorithms").
Lemma four_suits : suitable o_four 1 Algorithms /\ suitable o_four 1 Looped.
Proof. split; (split_and!; [cbn; lia|cbn; lia|exists 2; reflexivity|exists 2; reflexivity]). Qed.
Example ex_C91_overflow := C91_same_overflow_refuted o_four 1 eq_refl eq_refl (proj1 four_suits) (proj2 four_suits).
