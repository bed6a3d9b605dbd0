(** BOOST_CHECK_CLOSE with 1E-15 and BOOST_CHECK_EQUAL accept a double against an
    integer literal exactly when the double has that value. *)
From Coq Require Import ZArith Reals Psatz.
From Flocq Require Import Core IEEE754.Binary IEEE754.Bits.
From Verif Require Import Base Num MCeil PCeil MDouble PDouble SpecRound PRound MReport PReport PBench64 PExact64 MTests MTests2.
Local Open Scope R_scope.

#[local] Instance prec53l : Prec_gt_0 53 := eq_refl.
#[local] Instance fexp64_validl : Valid_exp fexp64.
Proof. apply (FLT_exp_valid (-1074) 53). Qed.
#[local] Instance rne_validl : Valid_rnd (BinarySingleNaN.round_mode rne).
Proof. apply valid_rnd_N. Qed.

(** * Comparisons *)
Lemma compare64 (x y : binary64) : finite64 x = true -> finite64 y = true -> b64_compare x y = Some (Rcompare (val64 x) (val64 y)).
Proof. intros Hx Hy. unfold b64_compare. by rewrite Bcompare_correct. Qed.
Lemma lt64_false (x y : binary64) : finite64 x = true -> finite64 y = true -> val64 y <= val64 x -> lt64 x y = false.
Proof.
  intros Hx Hy Hle. unfold lt64. rewrite compare64 by done.
  destruct (Rcompare_spec (val64 x) (val64 y)) as [Hl|E|Hg]; [|done|done]. exfalso. exact (Rlt_not_le _ _ Hl Hle).
Qed.
Lemma lt64_true (x y : binary64) : finite64 x = true -> finite64 y = true -> val64 x < val64 y -> lt64 x y = true.
Proof. intros Hx Hy Hlt. unfold lt64. rewrite compare64 by done. by rewrite Rcompare_Lt. Qed.
Lemma eq64_spec (x y : binary64) : finite64 y = true -> eq64 x y = true <-> finite64 x = true /\ val64 x = val64 y.
Proof.
  intros Hy. unfold eq64. split.
  - intros Hc. assert (Hx : finite64 x = true).
    { destruct x as [s|s|s pl Hpl|s m e He]; [done| |done|done]. destruct y; try done; destruct s; done. }
    split; [done|]. rewrite compare64 in Hc by done. destruct (Rcompare_spec (val64 x) (val64 y)) as [Hl|E|Hg]; done.
  - intros [Hx E]. rewrite compare64 by done. by rewrite Rcompare_Eq.
Qed.
(** [le64] against a finite bound. *)
Lemma le64_finite (x y : binary64) : finite64 x = true -> finite64 y = true -> le64 x y = true -> val64 x <= val64 y.
Proof.
  intros Hx Hy. unfold le64. rewrite compare64 by done.
  destruct (Rcompare_spec (val64 x) (val64 y)) as [Hl|E|Hg]; intros Hc; [by apply Rlt_le|by apply Req_le|done].
Qed.
Lemma le64_intro (x y : binary64) : finite64 x = true -> finite64 y = true -> val64 x <= val64 y -> le64 x y = true.
Proof.
  intros Hx Hy Hle. unfold le64. rewrite compare64 by done.
  destruct (Rcompare_spec (val64 x) (val64 y)) as [Hl|E|Hg]; [done|done|]. exfalso. exact (Rlt_not_le _ _ Hg Hle).
Qed.

(** The tolerance as a fraction. *)
Definition fraction15 : binary64 := nmul (double_literal (Dec 1 15)) (double_literal (Dec 1 2)).
Lemma fraction15_value : exists m e H, fraction15 = B754_finite 53 1024 false m e H /\ (Z.pos m < 2 ^ 53)%Z /\ (e <= -109)%Z.
Proof.
  assert (Hc : B2FF 53 1024 fraction15 = F754_finite false 6490371073168535 (-109)) by (vm_compute; reflexivity).
  destruct fraction15 as [s|s|s pl Hpl|s m e He]; try discriminate Hc. cbn in Hc. injection Hc as -> -> ->.
  exists 6490371073168535%positive, (-109)%Z, He. split; [done|]. split; [reflexivity|lia].
Qed.
Lemma fraction15_facts : finite64 fraction15 = true /\ 0 <= val64 fraction15 /\ val64 fraction15 < bpow radix2 (-56).
Proof.
  destruct fraction15_value as (m&e&He&->&Hm&Hle). split; [done|]. unfold B2R. split.
  - apply Rlt_le. by apply F2R_gt_0.
  - unfold F2R. cbn [Fnum Fexp cond_Zopp]. apply Rlt_le_trans with (bpow radix2 53 * bpow radix2 e).
    + apply Rmult_lt_compat_r; [apply bpow_gt_0|]. change (bpow radix2 53) with (IZR (2 ^ 53)). by apply IZR_lt.
    + rewrite <- bpow_plus. apply bpow_le. lia.
Qed.

(** * Two different doubles are not close *)
Lemma gap64 (x y : R) : generic_format radix2 fexp64 x -> generic_format radix2 fexp64 y -> 1 <= y -> x <> y ->
  y * bpow radix2 (-54) <= Rabs (x - y).
Proof.
  intros Fx Fy Hy Hne.
  assert (Hu : forall t, 0 <= t -> t * bpow radix2 (-53) < ulp radix2 fexp64 t).
  { intros t Ht. pose proof (ulp_FLT_gt radix2 (-1074) 53 t) as H. rewrite Rabs_pos_eq in H by done. exact H. }
  assert (Hb : bpow radix2 (-53) = 2 * bpow radix2 (-54)) by (change 2 with (bpow radix2 1); rewrite <- bpow_plus; reflexivity).
  assert (Hs : bpow radix2 (-54) < / 4).
  { replace (/ 4) with (bpow radix2 (-2)) by (rewrite (bp 2); simpl; lra). apply bpow_lt. lia. }
  pose proof (bpow_gt_0 radix2 (-54)) as Hp. rewrite Hb in Hu. set (u := bpow radix2 (-54)) in *. clearbody u. clear Hb.
  destruct (Rtotal_order x y) as [Hl|[E|Hg]]; [|done|].
  - rewrite Rabs_minus_sym, Rabs_pos_eq by lra. destruct (Rle_lt_dec x (y / 2)) as [Hh|Hh].
    + nra.
    + pose proof (succ_le_lt radix2 fexp64 x y Fx Fy Hl) as Hsc. rewrite succ_eq_pos in Hsc by lra.
      specialize (Hu x). assert (0 <= x) as Hx0 by lra. specialize (Hu Hx0). nra.
  - rewrite Rabs_pos_eq by lra. pose proof (succ_le_lt radix2 fexp64 y x Fy Fx Hg) as Hsc. rewrite succ_eq_pos in Hsc by lra.
    specialize (Hu y). assert (0 <= y) as Hx0 by lra. specialize (Hu Hx0). nra.
Qed.

(** The difference, when the first argument is finite and the values differ. *)
Lemma diff_cases (x y : binary64) : finite64 x = true -> finite64 y = true -> 1 <= val64 y -> val64 x <> val64 y ->
  (exists s, b64_minus rne x y = B754_infinity 53 1024 s) \/
  (finite64 (absdiff64 x y) = true /\ val64 y * bpow radix2 (-55) <= val64 (absdiff64 x y)).
Proof.
  intros Hx Hy H1 Hne. pose proof (Bminus_correct 53 1024 eq_refl eq_refl binop_nan_pl64 rne x y Hx Hy) as Hm.
  change (Bminus 53 1024 _ _ binop_nan_pl64 rne) with (b64_minus rne) in Hm.
  destruct (Rlt_bool _ _) eqn:Eb.
  - right. destruct Hm as (Hv&Hf&_). unfold absdiff64, b64_abs. rewrite is_finite_Babs, B2R_Babs, Hv. split; [done|].
    rewrite <- rnd64_abs. pose proof (gap64 _ _ (val64_format x) (val64_format y) H1 Hne) as Hg.
    assert (Hb : bpow radix2 (-54) = 2 * bpow radix2 (-55)) by (change 2 with (bpow radix2 1); rewrite <- bpow_plus; reflexivity).
    assert (Hlow : bpow radix2 (-1022) <= Rabs (val64 x - val64 y)).
    { apply Rle_trans with (2 := Hg). apply Rle_trans with (1 * bpow radix2 (-54)).
      - rewrite Rmult_1_l. apply bpow_le. lia.
      - apply Rmult_le_compat_r; [apply bpow_ge_0|done]. }
    pose proof (rnd_rel (Rabs (val64 x - val64 y))) as Hr. rewrite Rabs_Rabsolu in Hr. specialize (Hr Hlow).
    assert (Hu : uro <= / 2).
    { replace (/ 2) with (bpow radix2 (-1)) by (rewrite (bp 1); simpl; lra). unfold uro. apply bpow_le. lia. }
    apply Rabs_le_inv in Hr. pose proof (Rabs_pos (val64 x - val64 y)). rewrite Hb in Hg. set (d := Rabs (val64 x - val64 y)) in *.
    set (r := rnd64 d) in *. clearbody r d. set (u := bpow radix2 (-55)) in *. clearbody u. set (yy := val64 y) in *. clearbody yy. nra.
  - left. destruct Hm as (Hv&_). destruct (b64_minus rne x y) as [s|s|s pl Hpl|s m e He]; try done. by exists s.
Qed.

(** A difference, or its absolute value, that is not a number never passes. *)
Lemma lt64_nan_r (x y : binary64) : is_nan 53 1024 y = true -> lt64 x y = false.
Proof. destruct x as [s|s|s pl Hpl|s m e He], y as [s'|s'|s' pl' Hpl'|s' m' e' He']; done. Qed.
Lemma lt64_nan_l (x y : binary64) : is_nan 53 1024 x = true -> lt64 x y = false.
Proof. destruct x as [s|s|s pl Hpl|s m e He]; done. Qed.
Lemma eq64_nan (x y : binary64) : is_nan 53 1024 x = true -> eq64 x y = false.
Proof. destruct x as [s|s|s pl Hpl|s m e He]; done. Qed.
Lemma le64_nan (x y : binary64) : is_nan 53 1024 x = true -> le64 x y = false.
Proof. destruct x as [s|s|s pl Hpl|s m e He]; done. Qed.
Lemma div_nan (x y : binary64) : is_nan 53 1024 x = true -> is_nan 53 1024 (b64_div rne x y) = true.
Proof. destruct x as [s|s|s pl Hpl|s m e He]; destruct y; done. Qed.
Lemma safe_nan (d y : binary64) : is_nan 53 1024 d = true -> le64 (safe_division d y) fraction15 = false.
Proof.
  intros Hd. unfold safe_division. rewrite (lt64_nan_r _ d) by done. rewrite eq64_nan by done. rewrite (lt64_nan_l d) by done.
  rewrite !andb_false_r. cbn [orb]. apply le64_nan. by apply div_nan.
Qed.
Definition inf64 : binary64 := B754_infinity 53 1024 false.
Lemma lt64_inf (x : binary64) : finite64 x = true -> lt64 x inf64 = true.
Proof. destruct x as [s|s|s pl Hpl|s m e He]; try done; destruct s; done. Qed.
Lemma inf_lt64 (x : binary64) : lt64 inf64 x = false.
Proof. destruct x as [s|s|s pl Hpl|s m e He]; try done; destruct s; done. Qed.
Lemma inf_le64 (x : binary64) : finite64 x = true -> le64 inf64 x = false.
Proof. destruct x as [s|s|s pl Hpl|s m e He]; try done; destruct s; done. Qed.
Lemma inf_eq64 (x : binary64) : finite64 x = true -> eq64 inf64 x = false.
Proof. destruct x as [s|s|s pl Hpl|s m e He]; try done; destruct s; done. Qed.

(** Divisor 0: any difference is too large. *)
Lemma max_far : le64 max64 fraction15 = false.
Proof. vm_compute. reflexivity. Qed.
Lemma zero_below_one : lt64 (double_of 0) none1 = true.
Proof. vm_compute. reflexivity. Qed.
Lemma zero_max : nmul (double_of 0) max64 = B754_zero 53 1024 false.
Proof. apply B2FF_inj. vm_compute. reflexivity. Qed.
Lemma far_zero (d : binary64) : (is_nan 53 1024 d = false -> neg64 d = false) -> le64 (safe_division d (double_of 0)) fraction15 = true ->
  finite64 d = true /\ val64 d = 0.
Proof.
  intros Hs. destruct (is_nan 53 1024 d) eqn:En; [by rewrite safe_nan|]. specialize (Hs eq_refl).
  unfold safe_division. rewrite zero_below_one, zero_max.
  destruct d as [s|s|s pl Hpl|s m e He]; [intros _; split; reflexivity| |discriminate En|].
  - cbn in Hs. subst s. rewrite lt64_inf by done. cbn [andb]. by rewrite max_far.
  - cbn in Hs. subst s. rewrite lt64_true; [cbn [andb]; by rewrite max_far|done|done|]. apply F2R_gt_0. done.
Qed.
(** Divisor at least 1: the quotient of a large difference is too large. *)
Lemma min_product (y : binary64) : finite64 y = true -> 1 <= val64 y -> val64 y < bpow radix2 54 ->
  finite64 (nmul y min64) = true /\ val64 (nmul y min64) <= val64 y * bpow radix2 (-56).
Proof.
  intros Hy H1 Hb.
  assert (Hmin : val64 min64 = bpow radix2 (-1022)).
  { unfold min64, B2R, F2R. cbn [Fnum Fexp cond_Zopp]. change (IZR (Z.pos (2 ^ 52))) with (bpow radix2 52). rewrite <- bpow_plus. reflexivity. }
  assert (Hle : Rabs (rnd64 (val64 y * val64 min64)) <= bpow radix2 (-968)).
  { rewrite <- rnd64_abs, Hmin. rewrite <- (rnd64_id (bpow radix2 (-968))) by (apply generic_format_bpow; vm_compute; discriminate).
    apply rnd64_le. rewrite Rabs_pos_eq.
    - replace (-968)%Z with (54 + -1022)%Z by lia. rewrite bpow_plus. apply Rmult_le_compat_r; [apply bpow_ge_0|lra].
    - apply Rmult_le_pos; [lra|apply bpow_ge_0]. }
  assert (Hf : finite64 (nmul y min64) = true).
  { apply mul_finite; [done|done|]. apply Rle_lt_trans with (1 := Hle). apply bpow_lt. lia. }
  split; [done|]. destruct (mul_value _ _ Hf) as (_&_&->).
  apply Rle_trans with (1 := Rle_trans _ _ _ (Rle_abs _) Hle). apply Rle_trans with (1 * bpow radix2 (-56)).
  - rewrite Rmult_1_l. apply bpow_le. lia.
  - apply Rmult_le_compat_r; [apply bpow_ge_0|done].
Qed.
Lemma far_one (d y : binary64) : finite64 y = true -> 1 <= val64 y -> val64 y < bpow radix2 54 ->
  finite64 d = true -> val64 y * bpow radix2 (-55) <= val64 d -> le64 (safe_division d y) fraction15 = false.
Proof.
  intros Hy H1 Hb Hd Hlow.
  assert (H55 : bpow radix2 (-56) < bpow radix2 (-55)) by (apply bpow_lt; lia).
  pose proof (bpow_gt_0 radix2 (-56)) as H56.
  destruct (min_product y Hy H1 Hb) as [Hmf Hml].
  assert (Hmd : val64 (nmul y min64) <= val64 d).
  { apply Rle_trans with (1 := Hml). apply Rle_trans with (2 := Hlow). apply Rmult_le_compat_l; [|by apply Rlt_le].
    apply Rle_trans with 1; [apply Rle_0_1|done]. }
  assert (Hd0 : 0 < val64 d).
  { apply Rlt_le_trans with (2 := Hlow). apply Rmult_lt_0_compat; [|by apply Rlt_trans with (2 := H55)].
    apply Rlt_le_trans with (2 := H1). apply Rlt_0_1. }
  unfold safe_division. rewrite (lt64_false y none1); [|done|done|cbn [none1 B64_ops]; by rewrite one_value]. cbn [andb].
  destruct (eq64 d nzero) eqn:Ez.
  { apply eq64_spec in Ez as [_ Ez]; [|done]. exfalso. change (val64 nzero) with 0 in Ez. rewrite Ez in Hd0. by apply Rlt_irrefl in Hd0. }
  rewrite (lt64_false d (nmul y min64)) by done. rewrite andb_false_r. cbn [orb].
  assert (Hy0 : 0 < val64 y) by (apply Rlt_le_trans with (2 := H1); apply Rlt_0_1).
  assert (Hq : bpow radix2 (-55) <= val64 d / val64 y).
  { apply Rmult_le_reg_r with (val64 y); [done|]. unfold Rdiv. rewrite Rmult_assoc, Rinv_l by (by apply Rgt_not_eq). rewrite Rmult_1_r, Rmult_comm. done. }
  assert (Hq' : val64 d / val64 y <= val64 d).
  { apply Rmult_le_reg_r with (val64 y); [done|]. unfold Rdiv. rewrite Rmult_assoc, Rinv_l by (by apply Rgt_not_eq).
    apply Rmult_le_compat_l; [by apply Rlt_le|done]. }
  destruct (div_correct64 d y Hd) as [Hv Hf].
  - by apply Rgt_not_eq.
  - rewrite <- rnd64_abs. apply Rle_lt_trans with (2 := val64_lt d). rewrite (Rabs_pos_eq (val64 d)) by (by apply Rlt_le).
    rewrite <- (rnd64_id (val64 d)) at 2 by apply val64_format. apply rnd64_le. rewrite Rabs_pos_eq; [done|].
    apply Rle_trans with (2 := Hq). apply bpow_ge_0.
  - change (b64_div rne d y) with (div64 d y). destruct (le64 (div64 d y) fraction15) eqn:El; [|done].
    destruct fraction15_facts as (Hff&_&Hfl). apply le64_finite in El; [|done|done]. exfalso. rewrite Hv in El.
    assert (Hr : bpow radix2 (-55) <= rnd64 (val64 d / val64 y)).
    { rewrite <- (rnd64_id (bpow radix2 (-55))) by (apply generic_format_bpow; vm_compute; discriminate). by apply rnd64_le. }
    apply (Rlt_irrefl (bpow radix2 (-55))). apply Rle_lt_trans with (1 := Hr). apply Rle_lt_trans with (1 := El).
    by apply Rlt_trans with (2 := H55).
Qed.
Lemma inf_far (y : binary64) : finite64 y = true -> 1 <= val64 y -> le64 (safe_division inf64 y) fraction15 = false.
Proof.
  intros Hy H1. destruct fraction15_facts as (Hff&_). unfold safe_division.
  rewrite (lt64_false y none1); [|done|done|cbn [none1 B64_ops]; by rewrite one_value]. cbn [andb].
  rewrite inf_eq64 by done. rewrite inf_lt64, andb_false_r. cbn [orb].
  assert (Hd : b64_div rne inf64 y = inf64); [|rewrite Hd; by apply inf_le64].
  assert (Hs : neg64 y = false) by (apply positive_sign; apply Rlt_le_trans with (2 := H1); apply Rlt_0_1).
  clear -Hy Hs. destruct y as [s|s|s pl Hpl|s m e He]; try discriminate Hy; cbn in Hs; subst s; reflexivity.
Qed.

(** * The two checks *)
Lemma close15_exact (x : binary64) (z : Z) : (0 <= z < 2 ^ 53)%Z -> close15 x (double_of z) = true <-> finite64 x = true /\ val64 x = IZR z.
Proof.
  intros Hz. destruct (double_of_exact z Hz) as [Hv Hf]. pose proof (double_of_sign z Hz) as Hsg.
  assert (Habs : b64_abs (double_of z) = double_of z).
  { unfold b64_abs. apply B2R_Bsign_inj; [by rewrite is_finite_Babs|done| |].
    - rewrite B2R_Babs, Hv. apply Rabs_pos_eq. apply IZR_le. lia.
    - rewrite Bsign_Babs; [by rewrite Hsg|]. destruct (double_of z); done. }
  unfold close15, check_close. fold fraction15. rewrite Habs.
  assert (Hb : val64 (double_of z) < bpow radix2 54).
  { rewrite Hv. apply Rlt_trans with (bpow radix2 53); [|apply bpow_lt; lia]. change (bpow radix2 53) with (IZR (2 ^ 53)). apply IZR_lt. lia. }
  split.
  - intros Hc. apply andb_true_iff in Hc as [Hc _].
    destruct (Z.eq_dec z 0) as [->|Hne].
    + apply far_zero in Hc as [Hfd Hvd].
      2:{ unfold absdiff64, b64_abs. destruct (b64_minus rne x (double_of 0)); [done|done|discriminate|done]. }
      unfold absdiff64, b64_abs in Hfd, Hvd. rewrite is_finite_Babs in Hfd. rewrite B2R_Babs in Hvd.
      destruct (minus_finite _ _ Hfd) as [Hx _]. split; [done|].
      pose proof (Bminus_correct 53 1024 eq_refl eq_refl binop_nan_pl64 rne x (double_of 0) Hx Hf) as Hm.
      change (Bminus 53 1024 _ _ binop_nan_pl64 rne) with (b64_minus rne) in Hm. rewrite Hv, Rminus_0_r in Hm.
      rewrite rnd64_id in Hm by apply val64_format. rewrite Rlt_bool_true in Hm by apply val64_lt. destruct Hm as (Hm&_).
      rewrite Hm in Hvd. destruct (Req_dec (val64 x) 0) as [E|Hn]; [done|]. exfalso. exact (Rabs_no_R0 _ Hn Hvd).
    + assert (H1 : 1 <= val64 (double_of z)) by (rewrite Hv; apply IZR_le; lia).
      destruct (finite64 x) eqn:Hx.
      * split; [done|]. destruct (Req_dec (val64 x) (val64 (double_of z))) as [E|Hn]; [by rewrite E|]. exfalso.
        destruct (diff_cases x (double_of z) Hx Hf H1 Hn) as [[s Es]|[Hfd Hlow]].
        -- unfold absdiff64 in Hc. rewrite Es in Hc. change (b64_abs (B754_infinity 53 1024 s)) with inf64 in Hc. rewrite inf_far in Hc; done.
        -- rewrite far_one in Hc; done.
      * exfalso. unfold absdiff64 in Hc. destruct x as [s|s|s pl Hpl|s m e He]; try done.
        -- assert (E : b64_minus rne (B754_infinity 53 1024 s) (double_of z) = B754_infinity 53 1024 s) by (destruct (double_of z); done).
           rewrite E in Hc. change (b64_abs (B754_infinity 53 1024 s)) with inf64 in Hc. rewrite inf_far in Hc; done.
        -- rewrite safe_nan in Hc; [done|]. apply abs_nan_is_nan. destruct (double_of z); done.
  - intros [Hx Ex].
    pose proof (Bminus_correct 53 1024 eq_refl eq_refl binop_nan_pl64 rne x (double_of z) Hx Hf) as Hm.
    change (Bminus 53 1024 _ _ binop_nan_pl64 rne) with (b64_minus rne) in Hm. rewrite Hv, Ex, Rminus_diag_eq in Hm by done.
    rewrite round_0, Rabs_R0 in Hm by apply _. rewrite Rlt_bool_true in Hm by apply bpow_gt_0. destruct Hm as (Hmv&Hmf&_).
    assert (He : eq64 (absdiff64 x (double_of z)) nzero = true).
    { apply eq64_spec; [done|]. unfold absdiff64, b64_abs. rewrite is_finite_Babs, B2R_Babs, Hmv, Rabs_R0. done. }
    destruct fraction15_facts as (Hff&Hf0&_).
    assert (Hs : forall y : binary64, finite64 y = true -> val64 y = IZR z -> neg64 y = false -> le64 (safe_division (absdiff64 x (double_of z)) y) fraction15 = true).
    { intros y Hy Hvy Hsy. unfold safe_division. rewrite He. cbn [orb].
      assert (Hl : lt64 y none1 && lt64 (nmul y max64) (absdiff64 x (double_of z)) = false); [|rewrite Hl; by apply le64_intro].
      destruct (Z.eq_dec z 0) as [Ez|Hne].
      - rewrite (double_eq y z Hz Hy Hsy Hvy). rewrite Ez at 2. rewrite zero_max. apply andb_false_iff. right.
        apply lt64_false; [done|..].
        + apply eq64_spec in He; [by destruct He|done].
        + apply eq64_spec in He as [_ ->]; [|done]. apply Req_le. done.
      - rewrite lt64_false; [done|done|done|]. cbn [none1 B64_ops]. rewrite one_value, Hvy. apply IZR_le. lia. }
    apply andb_true_iff. split; [apply Hs; done|]. apply Hs.
    + unfold b64_abs. by rewrite is_finite_Babs.
    + unfold b64_abs. rewrite B2R_Babs, Ex. apply Rabs_pos_eq. apply IZR_le. lia.
    + unfold b64_abs. rewrite Bsign_Babs; [done|]. destruct x; done.
Qed.
Lemma eq64_exact (x : binary64) (z : Z) : (0 <= z < 2 ^ 53)%Z -> eq64 x (double_of z) = true <-> finite64 x = true /\ val64 x = IZR z.
Proof. intros Hz. destruct (double_of_exact z Hz) as [Hv Hf]. rewrite eq64_spec by done. rewrite Hv. done. Qed.
