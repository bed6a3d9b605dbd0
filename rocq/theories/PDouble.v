(** Facts about doubles. *)
From Coq Require Import ZArith Reals Psatz.
From Flocq Require Import Core IEEE754.Binary IEEE754.Bits.
From Verif Require Import Base Num MCeil PCeil MDouble.
Local Open Scope R_scope.

#[local] Instance prec53' : Prec_gt_0 53 := eq_refl.
#[local] Instance fexp64_valid' : Valid_exp fexp64.
Proof. apply (FLT_exp_valid (-1074) 53). Qed.
#[local] Instance rne_valid : Valid_rnd (BinarySingleNaN.round_mode rne).
Proof. apply valid_rnd_N. Qed.

Lemma val64_format (x : binary64) : generic_format radix2 fexp64 (val64 x).
Proof. apply generic_format_B2R. Qed.
Lemma val64_lt (x : binary64) : Rabs (val64 x) < bpow radix2 1024.
Proof. apply abs_B2R_lt_emax. Qed.
Lemma rnd64_id (x : R) : generic_format radix2 fexp64 x -> rnd64 x = x.
Proof. intros Hx. by apply round_generic; [apply _|]. Qed.
Lemma rnd64_le (x y : R) : x <= y -> rnd64 x <= rnd64 y.
Proof. intros Hx. by apply round_le; [apply _|apply _|]. Qed.
Lemma rnd64_abs (x : R) : rnd64 (Rabs x) = Rabs (rnd64 x).
Proof. unfold BinarySingleNaN.round_mode. rewrite round_NE_abs; [done|apply _]. Qed.

Lemma bp p : bpow radix2 (Z.neg p) = / IZR (2 ^ Z.pos p).
Proof. change (Z.neg p) with (- Z.pos p)%Z. rewrite bpow_opp. f_equal. Qed.
Lemma bpow_1024 : 2 < bpow radix2 1024.
Proof. change 2 with (bpow radix2 1). apply bpow_lt. lia. Qed.

(** The literal is the double nearest to 10^-10. *)
Lemma tolerance_value : val64 tolerance = 7737125245533627 * bpow radix2 (-86).
Proof. reflexivity. Qed.
Lemma tolerance_nearest : val64 tolerance = rnd64 (/ 10 ^ 10).
Proof.
  pose proof (Bdiv_correct 53 1024 eq_refl eq_refl binop_nan_pl64 rne (double_of 1) (double_of 10000000000)) as Hd.
  change (Bdiv 53 1024 _ _ binop_nan_pl64 rne) with (b64_div rne) in Hd.
  assert (H1 : val64 (double_of 1) = 1).
  { assert (double_of 1 = B754_finite 53 1024 false 4503599627370496 (-52) eq_refl) as -> by (apply B2FF_inj; vm_compute; reflexivity).
    unfold B2R, F2R. simpl. lra. }
  assert (H10 : val64 (double_of 10000000000) = 10 ^ 10).
  { assert (double_of 10000000000 = B754_finite 53 1024 false 5242880000000000 (-19) eq_refl) as -> by (apply B2FF_inj; vm_compute; reflexivity).
    unfold B2R, F2R. simpl. lra. }
  rewrite H1, H10 in Hd. unfold Rdiv in Hd. rewrite Rmult_1_l in Hd.
  assert (Hlt : Rabs (rnd64 (/ 10 ^ 10)) < bpow radix2 1024).
  { rewrite <- rnd64_abs. apply Rle_lt_trans with (rnd64 1).
    - apply rnd64_le. rewrite Rabs_pos_eq; lra.
    - rewrite rnd64_id by (rewrite <- H1; apply val64_format). pose proof bpow_1024. lra. }
  rewrite Rlt_bool_true in Hd by exact Hlt. rewrite <- (proj1 (Hd ltac:(lra))).
  f_equal.
Qed.

(** The real threshold: half a unit below the tolerance. *)
Definition threshold : R := 15474250491067253 * bpow radix2 (-87).
Lemma threshold_below : threshold < / 10 ^ 10.
Proof.
  unfold threshold. rewrite (bp 87). change (2 ^ 87)%Z with 154742504910672534362390528%Z. simpl. lra.
Qed.
Lemma rnd_threshold : rnd64 threshold = 7737125245533626 * bpow radix2 (-86).
Proof.
  pose proof (binary_normalize_correct 53 1024 eq_refl eq_refl rne 15474250491067253 (-87) false) as Hn.
  change (F2R {| Fnum := 15474250491067253; Fexp := -87 |}) with threshold in Hn.
  assert (Ht0 : 0 <= threshold) by (unfold threshold; pose proof (bpow_ge_0 radix2 (-87)); lra).
  assert (Hlt : Rabs (rnd64 threshold) < bpow radix2 1024).
  { rewrite <- rnd64_abs. apply Rle_lt_trans with (val64 tolerance); [|pose proof (val64_lt tolerance) as Hv; pose proof (Rle_abs (val64 tolerance)); lra].
    rewrite tolerance_nearest. apply rnd64_le. rewrite Rabs_pos_eq by done. pose proof threshold_below. lra. }
  rewrite Rlt_bool_true in Hn by exact Hlt. rewrite <- (proj1 Hn).
  assert (binary_normalize 53 1024 eq_refl eq_refl rne 15474250491067253 (-87) false =
    B754_finite 53 1024 false 7737125245533626 (-86) eq_refl) as -> by (apply B2FF_inj; vm_compute; reflexivity). reflexivity.
Qed.
Lemma pred_tolerance : Ulp.pred radix2 fexp64 (val64 tolerance) = 7737125245533626 * bpow radix2 (-86).
Proof.
  pose proof (Bpred_correct 53 1024 eq_refl eq_refl tolerance eq_refl) as Hp.
  assert (Hge : 0 <= Ulp.pred radix2 fexp64 (val64 tolerance)).
  { apply pred_ge_0; [apply _|rewrite tolerance_value; pose proof (bpow_gt_0 radix2 (-86)); lra|apply val64_format]. }
  rewrite Rlt_bool_true in Hp by (pose proof (bpow_gt_0 radix2 1024); lra). rewrite <- (proj1 Hp).
  assert (Bpred 53 1024 eq_refl eq_refl tolerance = B754_finite 53 1024 false 7737125245533626 (-86) eq_refl) as -> by (apply B2FF_inj; vm_compute; reflexivity).
  reflexivity.
Qed.
Lemma below_tolerance (x : R) : 0 <= x -> rnd64 x < val64 tolerance <-> x <= threshold.
Proof.
  intros Hx. split.
  - intros Hlt. apply Rnot_lt_le. intros Hgt.
    pose proof (round_N_ge_midp radix2 fexp64 (fun n => negb (Z.even n)) (val64 tolerance) x (val64_format tolerance)) as Hm.
    change (Znearest (fun n => negb (Z.even n))) with (BinarySingleNaN.round_mode rne) in Hm.
    assert (val64 tolerance <= rnd64 x); [|lra]. apply Hm. rewrite pred_tolerance, tolerance_value.
    replace ((7737125245533627 * bpow radix2 (-86) + 7737125245533626 * bpow radix2 (-86)) / 2) with threshold; [done|].
    unfold threshold. rewrite (bp 86), (bp 87). simpl (IZR (2 ^ _)). lra.
  - intros Hle. apply Rle_lt_trans with (rnd64 threshold); [by apply rnd64_le|].
    rewrite rnd_threshold, tolerance_value. pose proof (bpow_gt_0 radix2 (-86)). lra.
Qed.

Lemma abs_nan_is_nan (x : binary64) : is_nan 53 1024 x = true -> is_nan 53 1024 (b64_abs x) = true.
Proof. destruct x; done. Qed.
Lemma small64_finite (d : binary64) : small64 (b64_abs d) = true -> finite64 d = true /\ Rabs (val64 d) < val64 tolerance.
Proof.
  intros Hs. assert (Hf : finite64 d = true).
  { destruct d as [s|s|s pl Hpl|s m e He]; [done| |exfalso|done].
    - exfalso. revert Hs. destruct s; vm_compute; discriminate.
    - revert Hs. unfold small64, b64_compare. cbn. discriminate. }
  split; [done|]. revert Hs. unfold small64, b64_compare. rewrite Bcompare_correct; [|unfold b64_abs; by rewrite is_finite_Babs|done].
  unfold b64_abs. rewrite B2R_Babs. case Rcompare_spec; try done.
Qed.
Lemma minus_finite (a b : binary64) : finite64 (b64_minus rne a b) = true -> finite64 a = true /\ finite64 b = true.
Proof.
  destruct a as [sa|sa|sa pa Ha|sa ma ea Ha], b as [sb|sb|sb pb Hb|sb mb eb Hb]; try (by intros _); cbn;
    try discriminate; try (destruct sa, sb; discriminate).
Qed.
Lemma accept_iff (a b : binary64) :
  small64 (absdiff64 a b) = true <-> finite64 a = true /\ finite64 b = true /\ Rabs (val64 a - val64 b) <= threshold.
Proof.
  unfold absdiff64. split.
  - intros Hs. destruct (small64_finite _ Hs) as [Hf Hlt]. destruct (minus_finite _ _ Hf) as [Ha Hb].
    split; [done|]. split; [done|].
    pose proof (Bminus_correct 53 1024 eq_refl eq_refl binop_nan_pl64 rne a b Ha Hb) as Hm.
    destruct (Rlt_bool _ _) eqn:Eb.
    + destruct Hm as (Hv&_&_). change (Bminus 53 1024 _ _ binop_nan_pl64 rne) with (b64_minus rne) in Hv.
      rewrite Hv, <- rnd64_abs in Hlt. apply below_tolerance in Hlt; [done|apply Rabs_pos].
    + destruct Hm as (Hv&_). change (Bminus 53 1024 _ _ binop_nan_pl64 rne) with (b64_minus rne) in Hv.
      exfalso. destruct (b64_minus rne a b); done.
  - intros (Ha&Hb&Hd). apply below_tolerance in Hd; [|apply Rabs_pos]. rewrite rnd64_abs in Hd.
    pose proof (Bminus_correct 53 1024 eq_refl eq_refl binop_nan_pl64 rne a b Ha Hb) as Hm.
    rewrite Rlt_bool_true in Hm by (pose proof (val64_lt tolerance); pose proof (Rle_abs (val64 tolerance)); lra).
    destruct Hm as (Hv&Hf&_). change (Bminus 53 1024 _ _ binop_nan_pl64 rne) with (b64_minus rne) in Hv, Hf.
    unfold small64, b64_compare. rewrite Bcompare_correct; [|unfold b64_abs; by rewrite is_finite_Babs|done].
    unfold b64_abs. rewrite B2R_Babs, Hv. by rewrite Rcompare_Lt.
Qed.

(** The laws used by the end-to-end theorem. *)
Definition nonneg64 (x : binary64) : Prop := finite64 x = true /\ neg64 x = false.
Lemma one_value : val64 (double_of 1) = 1.
Proof.
  assert (double_of 1 = B754_finite 53 1024 false 4503599627370496 (-52) eq_refl) as -> by (apply B2FF_inj; vm_compute; reflexivity).
  unfold B2R, F2R. simpl. lra.
Qed.
Lemma unit64 (x : binary64) : nonneg64 x ->
  nmul x none1 = x /\ nmul x nzero = nzero /\ nadd nzero x = x /\ nadd x nzero = x.
Proof.
  intros [Hf Hn]. cbn [nmul none1 nzero nadd B64_ops]. split_and!.
  - pose proof (Bmult_correct 53 1024 eq_refl eq_refl binop_nan_pl64 rne x (double_of 1)) as Hm.
    change (Bmult 53 1024 _ _ binop_nan_pl64 rne) with (b64_mult rne) in Hm.
    rewrite one_value, Rmult_1_r, rnd64_id in Hm by apply val64_format.
    rewrite Rlt_bool_true in Hm by apply val64_lt. destruct Hm as (Hv&Hfin&Hs).
    rewrite Hf in Hfin. cbn [andb] in Hfin. change (finite64 (double_of 1)) with true in Hfin.
    apply B2R_Bsign_inj; [done|done|done|]. rewrite Hs by (destruct (b64_mult rne x (double_of 1)); done).
    change (neg64 (double_of 1)) with false. by rewrite xorb_false_r.
  - destruct x as [s|s|s pl Hpl|s m e He]; try done; cbn in Hn; by rewrite Hn.
  - destruct x as [s|s|s pl Hpl|s m e He]; try done. cbn in Hn. by rewrite Hn.
  - destruct x as [s|s|s pl Hpl|s m e He]; try done. cbn in Hn. by rewrite Hn.
Qed.
Lemma same64 (x : binary64) : finite64 x = true -> small64 (absdiff64 x x) = true.
Proof.
  intros Hf. apply accept_iff. split; [done|]. split; [done|]. rewrite Rminus_diag_eq by done. rewrite Rabs_R0.
  unfold threshold. pose proof (bpow_ge_0 radix2 (-87)). lra.
Qed.
