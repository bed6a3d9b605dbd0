(** The block counts computed in binary64 are exact below 2^53. *)
From Coq Require Import ZArith Reals Psatz.
From Flocq Require Import Core IEEE754.Binary IEEE754.Bits.
From Verif Require Import Base MCeil.
Local Open Scope Z_scope.

Notation fexp64 := (SpecFloat.fexp 53 1024).
Notation rnd64 := (round radix2 fexp64 (BinarySingleNaN.round_mode BinarySingleNaN.mode_NE)).
#[local] Instance prec53 : Prec_gt_0 53 := eq_refl.
#[local] Instance fexp64_valid : Valid_exp fexp64.
Proof. apply (FLT_exp_valid (-1074) 53). Qed.

Lemma int_format n : Z.abs n <= 2 ^ 53 -> generic_format radix2 fexp64 (IZR n).
Proof.
  intros Hn. destruct (Z.eq_dec (Z.abs n) (2 ^ 53)) as [He|Hne].
  - assert (IZR n = bpow radix2 53 \/ IZR n = (- bpow radix2 53)%R) as [->| ->].
    { change (bpow radix2 53) with (IZR (2 ^ 53)). rewrite <- opp_IZR.
      assert (n = 2 ^ 53 \/ n = - 2 ^ 53) as [->| ->] by lia; auto. }
    + apply generic_format_bpow'; [apply _|]. unfold SpecFloat.fexp, SpecFloat.emin. lia.
    + apply generic_format_opp, generic_format_bpow'; [apply _|]. unfold SpecFloat.fexp, SpecFloat.emin. lia.
  - apply (generic_format_FLT radix2 (-1074) 53). exists (Float radix2 n 0).
    + unfold F2R; simpl. lra.
    + simpl. change (Z.pow_pos 2 53) with (2 ^ 53). lia.
    + simpl. lia.
Qed.
Lemma int_small n : Z.abs n <= 2 ^ 53 -> (Rabs (IZR n) < bpow radix2 1024)%R.
Proof.
  intros Hn. rewrite <- abs_IZR. apply Rle_lt_trans with (IZR (2 ^ 53)); [by apply IZR_le|].
  change (IZR (2 ^ 53)) with (bpow radix2 53). apply bpow_lt. lia.
Qed.

Lemma double_of_exact n : 0 <= n < 2 ^ 53 ->
  B2R 53 1024 (double_of n) = IZR n /\ is_finite 53 1024 (double_of n) = true.
Proof.
  intros Hn. pose proof (binary_normalize_correct 53 1024 eq_refl eq_refl BinarySingleNaN.mode_NE n 0 false) as Hc.
  assert (F2R (Float radix2 n 0) = IZR n) as EF by (unfold F2R; simpl; lra). rewrite EF in Hc.
  rewrite round_generic in Hc; [|apply BinarySingleNaN.valid_rnd_round_mode|apply int_format; lia].
  rewrite Rlt_bool_true in Hc by (apply int_small; lia). destruct Hc as (H1&H2&_). done.
Qed.

Lemma round_between a b :
  0 <= a < 2 ^ 53 -> 0 < b < 2 ^ 53 ->
  Zceil (rnd64 (IZR a / IZR b)) = Zceil (IZR a / IZR b) /\
  (Rabs (rnd64 (IZR a / IZR b)) < bpow radix2 1024)%R /\ 0 <= Zceil (IZR a / IZR b) <= 2 ^ 53.
Proof.
  intros Ha Hb. set (x := (IZR a / IZR b)%R).
  assert (0 < IZR b)%R as Hb0 by (apply IZR_lt; lia).
  assert (1 <= IZR b)%R as Hb1 by (apply IZR_le; lia).
  assert (0 <= IZR a)%R as Ha0 by (apply IZR_le; lia).
  assert (0 <= x)%R as Hx0 by (unfold x; apply Rmult_le_pos; [lra|left; by apply Rinv_0_lt_compat]).
  assert (x <= IZR a)%R as Hxa.
  { unfold x. apply Rmult_le_reg_r with (IZR b); [done|]. unfold Rdiv. rewrite Rmult_assoc, Rinv_l by lra. nra. }
  assert (0 <= Zceil x) as Hc0.
  { change 0 with (Zceil (IZR 0)) at 1 || idtac. apply le_IZR. apply Rle_trans with x; [lra|apply Zceil_ub]. }
  assert (Zceil x <= a) as Hca by (by apply Zceil_glb).
  assert (0 <= rnd64 x)%R as Hr0.
  { apply round_ge_generic; [apply _|apply BinarySingleNaN.valid_rnd_round_mode|apply generic_format_0|done]. }
  assert (rnd64 x <= IZR (Zceil x))%R as Hr1.
  { apply round_le_generic; [apply _|apply BinarySingleNaN.valid_rnd_round_mode|apply int_format; lia|apply Zceil_ub]. }
  split; [|split].
  - apply Zle_antisym; [by apply Zceil_glb|].
    destruct (Z_le_gt_dec (Zceil x) (Zceil (rnd64 x))) as [|Hgt]; [done|exfalso].
    set (n := Zceil (rnd64 x)) in *.
    assert (0 <= n) as Hn0. { apply le_IZR. apply Rle_trans with (rnd64 x); [lra|apply Zceil_ub]. }
    assert (IZR n < x)%R as Hnx.
    { destruct (Rlt_or_le (IZR n) x) as [|Hle]; [done|]. apply Zceil_glb in Hle. lia. }
    assert (rnd64 x <= IZR n)%R as Hrn by apply Zceil_ub.
    assert (IZR n * IZR b + 1 <= IZR a)%R as Hnb.
    { rewrite <- mult_IZR, <- plus_IZR. apply IZR_le.
      enough (n * b < a) by lia. apply lt_IZR. rewrite mult_IZR.
      apply Rmult_lt_compat_r with (r := IZR b) in Hnx; [|done]. unfold x, Rdiv in Hnx.
      rewrite Rmult_assoc, Rinv_l in Hnx by lra. lra. }
    apply (round_N_le_le_midp radix2 fexp64) in Hrn; [|apply int_format; lia].
    assert (0 <= IZR n)%R as Hn0R by (by apply IZR_le).
    rewrite succ_eq_pos in Hrn by done.
    assert (IZR a = x * IZR b)%R as Hxb.
    { unfold x, Rdiv. rewrite Rmult_assoc, Rinv_l by lra. lra. }
    destruct (Z.eq_dec n 0) as [Hn|Hn].
    + rewrite Hn in *. assert (1 <= x * IZR b)%R as H1 by lra.
      assert (ulp radix2 fexp64 0 <= bpow radix2 (-53))%R as Hu.
      { assert (ulp radix2 fexp64 0 = bpow radix2 (-1074)) as ->.
        { apply (ulp_FLT_0 radix2 (-1074) 53). }
        apply bpow_le. lia. }
      assert (x <= bpow radix2 (-53) / 2)%R as H2 by lra.
      assert (IZR b <= bpow radix2 53)%R as H3.
      { change (bpow radix2 53) with (IZR (2 ^ 53)). apply IZR_le. lia. }
      assert (bpow radix2 (-53) * bpow radix2 53 = 1)%R as H4 by (rewrite <- bpow_plus; reflexivity).
      pose proof (bpow_gt_0 radix2 (-53)). pose proof (bpow_gt_0 radix2 53). nra.
    + assert (1 <= IZR n)%R as Hn1 by (apply IZR_le; lia).
      assert (ulp radix2 fexp64 (IZR n) <= Rabs (IZR n) * bpow radix2 (1 - 53))%R as Hu.
      { apply (ulp_FLT_le radix2 (-1074) 53). rewrite Rabs_pos_eq by lra.
        apply Rle_trans with (bpow radix2 0); [apply bpow_le; lia|simpl; lra]. }
      rewrite Rabs_pos_eq in Hu by lra.
      assert (x <= IZR n + IZR n * bpow radix2 (-53))%R as H2.
      { assert (bpow radix2 (1 - 53) = 2 * bpow radix2 (-53))%R as E2.
        { replace (1 - 53)%Z with (1 + -53)%Z by lia. rewrite bpow_plus. simpl (bpow radix2 1). lra. }
        rewrite E2 in Hu. lra. }
      assert (IZR a + 1 <= bpow radix2 53)%R as H3.
      { change (bpow radix2 53) with (IZR (2 ^ 53)). rewrite <- plus_IZR. apply IZR_le. lia. }
      assert (bpow radix2 (-53) * bpow radix2 53 = 1)%R as H4 by (rewrite <- bpow_plus; reflexivity).
      pose proof (bpow_gt_0 radix2 (-53)) as H5. pose proof (bpow_gt_0 radix2 53) as H6.
      assert (x * IZR b <= IZR n * IZR b + IZR n * IZR b * bpow radix2 (-53))%R as H7 by nra.
      assert (1 <= IZR n * IZR b * bpow radix2 (-53))%R as H8 by lra.
      assert (IZR n * IZR b <= bpow radix2 53 - 2)%R as H9 by lra.
      assert (IZR n * IZR b * bpow radix2 (-53) <= (bpow radix2 53 - 2) * bpow radix2 (-53))%R as H10 by (apply Rmult_le_compat_r; lra).
      nra.
  - rewrite Rabs_pos_eq by done. apply Rle_lt_trans with (IZR (Zceil x)); [done|].
    pose proof (int_small (Zceil x)) as Hs. rewrite Rabs_pos_eq in Hs by (by apply IZR_le). apply Hs. lia.
  - lia.
Qed.

Lemma round_FIX0 rnd (Hr : Valid_rnd rnd) x : round radix2 (FIX_exp 0) rnd x = IZR (rnd x).
Proof.
  unfold round, scaled_mantissa, cexp, FIX_exp, F2R. simpl. by rewrite !Rmult_1_r.
Qed.

Lemma block_count_double_exact a b :
  0 <= a < 2 ^ 53 -> 0 < b < 2 ^ 53 ->
  exists c, block_count_double a b = Ok c /\ (c - 1) * b < a <= c * b.
Proof.
  intros Ha Hb. destruct (round_between a b Ha Hb) as (Hc&Hs&Hr).
  destruct (double_of_exact a Ha) as [Ea Fa]. destruct (double_of_exact b) as [Eb Fb]; [lia|].
  set (x := (IZR a / IZR b)%R) in *.
  assert (0 < IZR b)%R as Hb0 by (apply IZR_lt; lia).
  pose proof (Bdiv_correct 53 1024 eq_refl eq_refl binop_nan_pl64 BinarySingleNaN.mode_NE (double_of a) (double_of b)) as Hd.
  rewrite Ea, Eb in Hd. specialize (Hd ltac:(lra)). fold x in Hd. rewrite Rlt_bool_true in Hd by exact Hs.
  destruct Hd as (Hd&Hf&_). rewrite Fa in Hf.
  unfold block_count_double, b64_div.
  match goal with |- context [Bnearbyint 53 1024 _ _ _ ?q] => set (qq := q) in * end.
  pose proof (Bnearbyint_correct 53 1024 eq_refl unop_nan_pl64 BinarySingleNaN.mode_UP qq) as (Hn&Hnf&_).
  match goal with |- context [Bnearbyint 53 1024 _ _ _ qq] => set (cc := Bnearbyint 53 1024 eq_refl unop_nan_pl64 BinarySingleNaN.mode_UP qq) in * end.
  assert (is_finite 53 1024 cc = true) as ->.
  { etransitivity; [exact Hnf|]. exact Hf. }
  assert (B2R 53 1024 cc = IZR (Zceil x)) as EC.
  { etransitivity; [exact Hn|]. change (BinarySingleNaN.round_mode BinarySingleNaN.mode_UP) with Zceil.
    rewrite round_FIX0 by apply _. f_equal. rewrite <- Hc. f_equal. exact Hd. }
  assert (Btrunc 53 1024 cc = Zceil x) as ->.
  { apply eq_IZR. rewrite (Btrunc_correct 53 1024 eq_refl), EC, round_FIX0 by apply _. by rewrite Ztrunc_IZR. }
  rewrite (proj2 (Z.leb_le 0 _)) by lia. rewrite (proj2 (Z.ltb_lt _ _)) by lia. cbn [andb].
  exists (Zceil x). split; [done|].
  assert (IZR a = x * IZR b)%R as Hxb.
  { unfold x, Rdiv. rewrite Rmult_assoc, Rinv_l by lra. lra. }
  split.
  - apply lt_IZR. rewrite mult_IZR, Hxb, minus_IZR. apply Rmult_lt_compat_r; [done|].
    destruct (Rlt_or_le (IZR (Zceil x) - 1) x) as [|Hle]; [done|].
    rewrite <- minus_IZR in Hle. apply Zceil_glb in Hle. lia.
  - apply le_IZR. rewrite mult_IZR, Hxb. apply Rmult_le_compat_r; [lra|]. apply Zceil_ub.
Qed.

Lemma block_count_double_zero a : 0 <= a < 2 ^ 53 -> block_count_double a 0 = Fail EOverflow.
Proof.
  intros Ha. destruct (double_of_exact a Ha) as [Ea Fa]. unfold block_count_double.
  assert (double_of 0 = B754_zero 53 1024 false) as -> by reflexivity.
  unfold b64_div, Bdiv. destruct (double_of a) as [s|s|s pl Hp|s m e Hm]; try discriminate.
  - vm_compute. by destruct s.
  - vm_compute. by destruct s.
Qed.

From Verif Require Import MIter.
Lemma block_count_model a b :
  (Z.of_nat a < 2 ^ 53)%Z -> (Z.of_nat b < 2 ^ 53)%Z ->
  block_count_double (Z.of_nat a) (Z.of_nat b) = rbind (block_count a b) (fun c => Ok (Z.of_nat c)).
Proof.
  intros Ha Hb. unfold block_count. destruct (Nat.eqb_spec b 0) as [->|Hne].
  - cbn [rbind]. change (Z.of_nat 0) with 0%Z. apply block_count_double_zero. lia.
  - destruct (block_count_double_exact (Z.of_nat a) (Z.of_nat b)) as (c&->&H1&H2); [lia|lia|].
    cbn [rbind]. f_equal. unfold cdiv. rewrite Nat2Z.inj_div.
    apply Z.div_unique with (r := (Z.of_nat (a + (b - 1)) - Z.of_nat b * c)%Z); nia.
Qed.
