(** The printed figures. *)
From Coq Require Import ZArith Reals Psatz.
From Flocq Require Import Core Relative IEEE754.Binary IEEE754.Bits.
From Verif Require Import Base Num MCeil PCeil MDouble PDouble SpecRound PRound SpecReport MReport.
Local Open Scope R_scope.

#[local] Instance prec53r : Prec_gt_0 53 := eq_refl.
#[local] Instance fexp64_validr : Valid_exp fexp64.
Proof. apply (FLT_exp_valid (-1074) 53). Qed.

Lemma rnd_rel (x : R) : bpow radix2 (-1022) <= Rabs x -> Rabs (rnd64 x - x) <= uro * Rabs x.
Proof.
  intros Hx. pose proof (relative_error_N_FLT radix2 (-1074) 53 eq_refl (fun n => negb (Z.even n)) x Hx) as H.
  change (round radix2 (FLT_exp (-1074) 53) _ x) with (rnd64 x) in H.
  replace (/ 2 * bpow radix2 (- (53) + 1)) with uro in H; [exact H|].
  unfold uro. change (- (53) + 1)%Z with (-52)%Z. change (-53)%Z with (-52 + -1)%Z. rewrite bpow_plus. simpl (bpow radix2 (-1)). lra.
Qed.

Notation near := within_roundings.
Notation v h := ((1 - uro) ^ h).
Lemma v_pos h : 0 < v h.
Proof. apply pow_lt. pose proof uro_small. lra. Qed.
Lemma v_le h : v h <= 1.
Proof.
  induction h as [|h IH]; cbn [Rpow_def.pow]; [lra|]. pose proof uro_pos. pose proof uro_small. pose proof (v_pos h). nra.
Qed.
Lemma v_mono h h' : (h <= h')%nat -> v h' <= v h.
Proof.
  intros Hh. replace h' with (h + (h' - h))%nat by lia. rewrite pow_add. pose proof (v_le (h' - h)). pose proof (v_pos h). nra.
Qed.
Lemma v_half h : (h <= 10)%nat -> / 2 <= v h.
Proof.
  intros Hh. eapply Rle_trans; [|apply (v_mono h 10 Hh)]. pose proof uro_pos as H1. pose proof uro_small as H2.
  assert (H : forall k, 1 - INR k * uro <= v k).
  { induction k as [|k IH]; [cbn; lra|]. rewrite S_INR. cbn [Rpow_def.pow]. pose proof (pos_INR k). pose proof (v_le k). pose proof (v_pos k). nra. }
  pose proof (H 10%nat) as H3. change (INR 10) with (1 + 1 + 1 + 1 + 1 + 1 + 1 + 1 + 1 + 1) in H3. lra.
Qed.
Lemma w_two h : (h <= 10)%nat -> w h <= 2.
Proof.
  intros Hh. eapply Rle_trans; [apply (w_mono h 10 Hh)|]. pose proof uro_pos as H1. pose proof uro_small as H2.
  eapply Rle_trans; [apply (w_upper 10)|]; change (INR 10) with (1 + 1 + 1 + 1 + 1 + 1 + 1 + 1 + 1 + 1); nra.
Qed.
(** A magnitude far away from overflow and underflow *)
Definition mid (r : R) : Prop := bpow radix2 (-1000) <= r <= bpow radix2 1000.
Lemma mid_pos r : mid r -> 0 < r.
Proof. intros [H _]. pose proof (bpow_gt_0 radix2 (-1000)). lra. Qed.

Lemma round_near (n : nat) (p r : R) : (n <= 10)%nat -> mid r -> r * v n <= p <= r * w n ->
  r * v (S n) <= rnd64 p <= r * w (S n) /\ Rabs (rnd64 p) < bpow radix2 1024 /\ 0 < p.
Proof.
  intros Hn Hr Hp. pose proof (mid_pos r Hr) as Hr0. pose proof (v_half n Hn) as Hv. pose proof (w_two n Hn) as Hw.
  pose proof uro_pos as H1. pose proof uro_small as H2. destruct Hr as [Hr1 Hr2].
  assert (Hp0 : 0 < p) by nra.
  assert (Hlow : bpow radix2 (-1022) <= Rabs p).
  { rewrite Rabs_pos_eq by lra. apply Rle_trans with (bpow radix2 (-1001)); [apply bpow_le; lia|].
    change (-1001)%Z with (-1 + -1000)%Z. rewrite bpow_plus. simpl (bpow radix2 (-1)). pose proof (bpow_gt_0 radix2 (-1000)). nra. }
  pose proof (rnd_rel p Hlow) as He. rewrite (Rabs_pos_eq p) in He by lra. apply Rabs_le_inv in He.
  assert (Hlo : r * v (S n) <= rnd64 p) by (cbn [Rpow_def.pow]; pose proof (v_pos n); nra).
  assert (Hhi : rnd64 p <= r * w (S n)) by (cbn [Rpow_def.pow]; pose proof (w_ge n); nra).
  split; [done|]. split; [|done].
  pose proof (v_pos (S n)). rewrite Rabs_pos_eq by nra.
  assert (rnd64 p <= 4 * bpow radix2 1000) by nra.
  apply Rle_lt_trans with (4 * bpow radix2 1000); [done|]. change 4 with (bpow radix2 2). rewrite <- bpow_plus. apply bpow_lt. lia.
Qed.
Lemma near_mul n m x y r s : (n + m <= 10)%nat -> 0 < r -> 0 < s -> mid (r * s) -> near n x r -> near m y s -> near (S (n + m)) (nmul x y) (r * s).
Proof.
  intros Hn Hr Hs Hm [Hx Hx'] [Hy Hy'].
  assert (Hp : r * s * v (n + m) <= val64 x * val64 y <= r * s * w (n + m)).
  { rewrite !pow_add. pose proof (v_pos n). pose proof (v_pos m). pose proof (w_ge n). pose proof (w_ge m).
    assert (0 < r * v n) by nra. assert (0 < s * v m) by nra.
    replace (r * s * (v n * v m)) with ((r * v n) * (s * v m)) by ring. replace (r * s * (w n * w m)) with ((r * w n) * (s * w m)) by ring.
    split; apply Rmult_le_compat; lra. }
  destruct (round_near (n + m) _ (r * s) Hn Hm Hp) as (H1&H2&_).
  assert (Hf : finite64 (nmul x y) = true) by (apply mul_finite; done). split; [done|].
  destruct (mul_value _ _ Hf) as (_&_&->). exact H1.
Qed.
Lemma div_correct64 (x y : binary64) : finite64 x = true -> val64 y <> 0 -> Rabs (rnd64 (val64 x / val64 y)) < bpow radix2 1024 ->
  val64 (div64 x y) = rnd64 (val64 x / val64 y) /\ finite64 (div64 x y) = true.
Proof.
  intros Hx Hy Hb. pose proof (Bdiv_correct 53 1024 eq_refl eq_refl binop_nan_pl64 rne x y Hy) as Hd.
  rewrite Rlt_bool_true in Hd by exact Hb. destruct Hd as (H1&H2&_).
  change (Bdiv 53 1024 _ _ binop_nan_pl64 rne x y) with (div64 x y) in *. split; [exact H1|]. etransitivity; [exact H2|exact Hx].
Qed.
Lemma near_div n x y r s : (n <= 10)%nat -> 0 < s -> mid (r / s) -> near n x r -> val64 y = s -> near (S n) (div64 x y) (r / s).
Proof.
  intros Hn Hs Hm [Hx Hx'] Hy.
  assert (Hp : r / s * v n <= val64 x / s <= r / s * w n).
  { unfold Rdiv. pose proof (Rinv_0_lt_compat s Hs) as Hi. replace (r * / s * v n) with ((r * v n) * / s) by ring. replace (r * / s * w n) with ((r * w n) * / s) by ring.
    split; apply Rmult_le_compat_r; lra. }
  destruct (round_near n _ (r / s) Hn Hm Hp) as (H1&H2&_).
  destruct (div_correct64 x y Hx) as [Hv Hf]; [lra|by rewrite Hy|]. split; [done|]. rewrite Hv, Hy. exact H1.
Qed.
Lemma near_int n : (0 <= n < 2 ^ 53)%Z -> near 0 (double_of n) (IZR n).
Proof. intros Hn. destruct (double_of_exact n Hn) as [H1 H2]. split; [done|]. cbn [Rpow_def.pow]. rewrite H1. lra. Qed.

(** An integer power-of-two range of a product *)
Definition between (a b : Z) (r : R) : Prop := bpow radix2 a <= r <= bpow radix2 b.
Lemma between_mul a b c d r s : between a b r -> between c d s -> between (a + c) (b + d) (r * s).
Proof.
  intros [H1 H2] [H3 H4]. unfold between. rewrite !bpow_plus. pose proof (bpow_gt_0 radix2 a). pose proof (bpow_gt_0 radix2 c).
  split; apply Rmult_le_compat; lra.
Qed.
Lemma between_div a b c d r s : between a b r -> between c d s -> between (a - d) (b - c) (r / s).
Proof.
  intros Hr [H3 H4]. unfold Rdiv, Z.sub. apply between_mul; [done|]. unfold between. rewrite !bpow_opp.
  pose proof (bpow_gt_0 radix2 c). split; apply Rinv_le; lra.
Qed.
Lemma between_mid a b r : (-1000 <= a)%Z -> (b <= 1000)%Z -> between a b r -> mid r.
Proof. intros Ha Hb [H1 H2]. split; [eapply Rle_trans; [apply bpow_le, Ha|done]|eapply Rle_trans; [done|apply bpow_le, Hb]]. Qed.
Lemma between_int n : (0 < n < 2 ^ 53)%Z -> between 0 53 (IZR n).
Proof.
  intros Hn. split; [apply (IZR_le 1); lia|]. change (bpow radix2 53) with (IZR (2 ^ 53)). apply IZR_le. lia.
Qed.
Lemma giga_value : val64 giga = 1000000000.
Proof. apply double_of_exact. lia. Qed.

Lemma near_le n m x r : 0 < r -> (n <= m)%nat -> near n x r -> near m x r.
Proof.
  intros Hr Hn [H1 H2]. split; [done|]. pose proof (v_mono n m Hn). pose proof (w_mono n m Hn).
  assert (r * v m <= r * v n) by (apply Rmult_le_compat_l; lra). assert (r * w n <= r * w m) by (apply Rmult_le_compat_l; lra). lra.
Qed.

Lemma flops_near x y k : (0 < x < 2 ^ 53)%Z -> (0 < y < 2 ^ 53)%Z -> (0 < k < 2 ^ 53)%Z ->
  near 3 (flops64 x y k) (2 * IZR x * IZR y * IZR k) /\ between 0 213 (2 * IZR x * IZR y * IZR k).
Proof.
  intros Hx Hy Hk. pose proof (between_int 2 ltac:(lia)) as B2. pose proof (between_int x Hx) as Bx.
  pose proof (between_int y Hy) as By. pose proof (between_int k Hk) as Bk.
  pose proof (between_mul _ _ _ _ _ _ B2 Bx) as B2x. pose proof (between_mul _ _ _ _ _ _ B2x By) as Bxy. pose proof (between_mul _ _ _ _ _ _ Bxy Bk) as Bxyk.
  assert (P : forall a b r, between a b r -> 0 < r) by (intros a b r [H _]; pose proof (bpow_gt_0 radix2 a); lra).
  split.
  - unfold flops64. apply (near_mul 2 0); [lia|exact (P _ _ _ Bxy)|exact (P _ _ _ Bk)|apply (between_mid _ _ _) with (3 := Bxyk); lia| |apply near_int; lia].
    apply (near_mul 1 0); [lia|exact (P _ _ _ B2x)|exact (P _ _ _ By)|apply (between_mid _ _ _) with (3 := Bxy); lia| |apply near_int; lia].
    apply (near_mul 0 0); [lia|lra|exact (P _ _ _ Bx)|apply (between_mid _ _ _) with (3 := B2x); lia|apply near_int; lia|apply near_int; lia].
  - destruct Bxyk as [H1 H2]. split; [exact H1|]. eapply Rle_trans; [exact H2|]. apply bpow_le. lia.
Qed.

Lemma gflop_near x y k : (0 < x < 2 ^ 53)%Z -> (0 < y < 2 ^ 53)%Z -> (0 < k < 2 ^ 53)%Z ->
  near 4 (gflop64 x y k) (2 * IZR x * IZR y * IZR k / 1000000000) /\ between (-53) 213 (2 * IZR x * IZR y * IZR k / 1000000000).
Proof.
  intros Hx Hy Hk. destruct (flops_near x y k Hx Hy Hk) as [Hn Hb]. pose proof (between_int 1000000000 ltac:(lia)) as Bg.
  pose proof (between_div _ _ _ _ _ _ Hb Bg) as Bd. split; [|exact Bd].
  unfold gflop64. apply near_div; [lia|lra|apply (between_mid _ _ _) with (3 := Bd); lia|done|exact giga_value].
Qed.
Lemma performance_near reps x y k d : (0 < reps < 2 ^ 53)%Z -> (0 < x < 2 ^ 53)%Z -> (0 < y < 2 ^ 53)%Z -> (0 < k < 2 ^ 53)%Z ->
  between (-300) 300 (val64 d) ->
  near 6 (performance64 reps x y k d) (IZR reps * (2 * IZR x * IZR y * IZR k / 1000000000) / val64 d).
Proof.
  intros Hr Hx Hy Hk Hd. destruct (gflop_near x y k Hx Hy Hk) as [Hn Hb]. pose proof (between_int reps Hr) as Br.
  pose proof (between_mul _ _ _ _ _ _ Br Hb) as Bm. pose proof (between_div _ _ _ _ _ _ Bm Hd) as Bd.
  assert (P : forall a b r, between a b r -> 0 < r) by (intros a b r [H _]; pose proof (bpow_gt_0 radix2 a); lra).
  unfold performance64. apply near_div; [lia|exact (P _ _ _ Hd)|apply (between_mid _ _ _) with (3 := Bd); lia| |done].
  apply (near_mul 0 4); [lia|exact (P _ _ _ Br)|exact (P _ _ _ Hb)|apply (between_mid _ _ _) with (3 := Bm); lia|apply near_int; lia|done].
Qed.
Lemma average_near reps d : (0 < reps < 2 ^ 53)%Z -> finite64 d = true -> between (-300) 300 (val64 d) ->
  near 1 (average64 reps d) (val64 d / IZR reps).
Proof.
  intros Hr Hf Hd. pose proof (between_int reps Hr) as Br. pose proof (between_div _ _ _ _ _ _ Hd Br) as Bd.
  unfold average64. apply near_div; [lia|apply (IZR_lt 0); lia|apply (between_mid _ _ _) with (3 := Bd); lia| |apply double_of_exact; lia].
  split; [done|]. cbn [Rpow_def.pow]. lra.
Qed.
Lemma reference_near N d : (0 < N < 2 ^ 53)%Z -> between (-300) 300 (val64 d) ->
  near 5 (reference64 N d) (2 * IZR N * IZR N * IZR N / 1000000000 / val64 d).
Proof.
  intros HN Hd. destruct (gflop_near N N N HN HN HN) as [Hn Hb]. pose proof (between_div _ _ _ _ _ _ Hb Hd) as Bd.
  assert (P : forall a b r, between a b r -> 0 < r) by (intros a b r [H _]; pose proof (bpow_gt_0 radix2 a); lra).
  unfold reference64. apply near_div; [lia|exact (P _ _ _ Hd)|apply (between_mid _ _ _) with (3 := Bd); lia|done|done].
Qed.

(** ** Exact flop counts *)
Lemma mul_ints (x y : binary64) (a b : Z) : finite64 x = true -> finite64 y = true -> val64 x = IZR a -> val64 y = IZR b ->
  (Z.abs (a * b) <= 2 ^ 53)%Z -> finite64 (nmul x y) = true /\ val64 (nmul x y) = IZR (a * b).
Proof.
  intros Hx Hy Ha Hb Hab.
  assert (Hr : rnd64 (val64 x * val64 y) = IZR (a * b)).
  { rewrite Ha, Hb, <- mult_IZR. apply rnd64_id. by apply int_format. }
  assert (Hf : finite64 (nmul x y) = true). { apply mul_finite; [done|done|]. rewrite Hr. by apply int_small. }
  split; [done|]. destruct (mul_value _ _ Hf) as (_&_&->). exact Hr.
Qed.
Lemma flops_exact x y k : (0 <= x)%Z -> (0 <= y)%Z -> (0 <= k)%Z -> (0 < x * y * k)%Z -> (2 * x * y * k <= 2 ^ 53)%Z ->
  val64 (flops64 x y k) = IZR (2 * x * y * k).
Proof.
  intros Hx Hy Hk H0 Hb. assert (0 < x)%Z by nia. assert (0 < y)%Z by nia. assert (0 < k)%Z by nia.
  assert (2 * x * y <= 2 ^ 53)%Z by nia. assert (2 * x <= 2 ^ 53)%Z by nia.
  assert (y < 2 ^ 53)%Z by nia. assert (k < 2 ^ 53)%Z by nia.
  destruct (double_of_exact 2 ltac:(lia)) as [V2 F2]. destruct (double_of_exact x ltac:(lia)) as [Vx Fx].
  destruct (double_of_exact y ltac:(lia)) as [Vy Fy]. destruct (double_of_exact k ltac:(lia)) as [Vk Fk].
  destruct (mul_ints (double_of 2) (double_of x) 2 x F2 Fx V2 Vx ltac:(lia)) as [F1 V1].
  destruct (mul_ints _ (double_of y) (2 * x) y F1 Fy V1 Vy ltac:(lia)) as [F3 V3].
  destruct (mul_ints _ (double_of k) (2 * x * y) k F3 Fk V3 Vk ltac:(lia)) as [F4 V4]. exact V4.
Qed.

(** ** Degenerate runs *)
Lemma pos_shape (d : binary64) : finite64 d = true -> 0 < val64 d -> exists m e H, d = B754_finite 53 1024 false m e H.
Proof.
  intros Hf Hd. destruct d as [s|s|s pl Hpl|s m e He]; try done; [cbn in Hd; lra|]. destruct s; [|by exists m, e, He].
  exfalso. cbn in Hd. pose proof (F2R_lt_0 radix2 (Float radix2 (Z.neg m) e) ltac:(reflexivity)) as Hn. exact (Rlt_asym _ _ Hd Hn).
Qed.
Lemma div_by_zero (x : binary64) : finite64 x = true -> 0 < val64 x -> div64 x plus_zero = plus_inf.
Proof. intros Hf Hx. destruct (pos_shape x Hf Hx) as (m&e&H&->). reflexivity. Qed.
Lemma zero_div (d : binary64) : finite64 d = true -> 0 < val64 d -> div64 plus_zero d = plus_zero.
Proof. intros Hf Hx. destruct (pos_shape d Hf Hx) as (m&e&H&->). reflexivity. Qed.
Lemma near_pos n x r : 0 < r -> near n x r -> finite64 x = true /\ 0 < val64 x.
Proof. intros Hr [H1 H2]. split; [done|]. pose proof (v_pos n). nra. Qed.
Lemma double_of_0 : double_of 0 = plus_zero.
Proof. reflexivity. Qed.
Lemma zero_mul (x : binary64) : finite64 x = true -> 0 < val64 x -> nmul plus_zero x = plus_zero.
Proof. intros Hf Hx. destruct (pos_shape x Hf Hx) as (m&e&H&->). reflexivity. Qed.
Lemma between_pos a b r : between a b r -> 0 < r.
Proof. intros [H _]. pose proof (bpow_gt_0 radix2 a). lra. Qed.

Lemma no_repetitions x y k d : (0 < x < 2 ^ 53)%Z -> (0 < y < 2 ^ 53)%Z -> (0 < k < 2 ^ 53)%Z -> finite64 d = true -> 0 < val64 d ->
  performance64 0 x y k d = plus_zero /\ average64 0 d = plus_inf.
Proof.
  intros Hx Hy Hk Hf Hd. unfold performance64, average64. rewrite double_of_0.
  destruct (gflop_near x y k Hx Hy Hk) as [Hn Hb]. destruct (near_pos _ _ _ (between_pos _ _ _ Hb) Hn) as [F P].
  rewrite (zero_mul _ F P). split; [by apply zero_div|by apply div_by_zero].
Qed.
Lemma no_time reps x y k : (0 < reps < 2 ^ 53)%Z -> (0 < x < 2 ^ 53)%Z -> (0 < y < 2 ^ 53)%Z -> (0 < k < 2 ^ 53)%Z ->
  performance64 reps x y k plus_zero = plus_inf.
Proof.
  intros Hr Hx Hy Hk. unfold performance64. destruct (gflop_near x y k Hx Hy Hk) as [Hn Hb]. pose proof (between_int reps Hr) as Br.
  pose proof (between_mul _ _ _ _ _ _ Br Hb) as Bm.
  assert (Hm : near 5 (nmul (double_of reps) (gflop64 x y k)) (IZR reps * (2 * IZR x * IZR y * IZR k / 1000000000))).
  { apply (near_mul 0 4); [lia|exact (between_pos _ _ _ Br)|exact (between_pos _ _ _ Hb)|apply (between_mid _ _ _) with (3 := Bm); lia|apply near_int; lia|done]. }
  destruct (near_pos _ _ _ (between_pos _ _ _ Bm) Hm) as [F P]. by apply div_by_zero.
Qed.
Lemma bench_fast n t : (0 < n < 2 ^ 53)%Z -> (0 <= t < 1000000)%Z -> bench_gflops64 n t = plus_inf.
Proof.
  intros Hn Ht. unfold bench_gflops64, bench_seconds64. rewrite Z.div_small by lia.
  change (div64 (double_of 0) (double_of 1000)) with plus_zero.
  change (bench_flops64 n) with (flops64 n n n). change (div64 (flops64 n n n) giga) with (gflop64 n n n).
  destruct (gflop_near n n n Hn Hn Hn) as [H Hb]. destruct (near_pos _ _ _ (between_pos _ _ _ Hb) H) as [F P]. by apply div_by_zero.
Qed.
(** The milliseconds shown are at most one short; the figure of benchmark.cpp is
    that of the truncated time. *)
Lemma round_seconds m : (0 < m < 2 ^ 53)%Z -> near 1 (div64 (double_of m) (double_of 1000)) (IZR m / 1000) /\ between (-10) 53 (IZR m / 1000).
Proof.
  intros Hm. pose proof (between_int m Hm) as B. assert (B' : between 0 10 1000).
  { split; [apply (IZR_le 1); lia|]. change (bpow radix2 10) with 1024. lra. }
  pose proof (between_div _ _ _ _ _ _ B B') as Bd. split; [|exact Bd].
  apply near_div; [lia|lra|apply (between_mid _ _ _) with (3 := Bd); lia|apply near_int; lia|apply double_of_exact; lia].
Qed.
Lemma near_div_val n x y r : (n <= 10)%nat -> 0 < val64 y -> mid (r / val64 y) -> near n x r -> near (S n) (div64 x y) (r / val64 y).
Proof. intros Hn Hy Hm Hx. by apply near_div. Qed.
Lemma bench_near n t : (0 < n < 2 ^ 53)%Z -> (1000000 <= t < 2 ^ 63)%Z ->
  finite64 (bench_gflops64 n t) = true /\
  let e := 2 * IZR n * IZR n * IZR n / 1000000000 / (IZR (t / 1000000) / 1000) in
  e * v 5 / w 1 <= val64 (bench_gflops64 n t) <= e * w 5 / v 1.
Proof.
  intros Hn Ht. assert (Hm : (0 < t / 1000000 < 2 ^ 53)%Z).
  { split; [apply Z.div_str_pos; lia|apply Z.div_lt_upper_bound; lia]. }
  destruct (round_seconds _ Hm) as [[F Hs] Bs]. set (s := IZR (t / 1000000) / 1000) in *.
  destruct (gflop_near n n n Hn Hn Hn) as [Hg Bg]. set (g := 2 * IZR n * IZR n * IZR n / 1000000000) in *.
  unfold bench_gflops64. change (bench_flops64 n) with (flops64 n n n). change (div64 (flops64 n n n) giga) with (gflop64 n n n).
  unfold bench_seconds64. set (y := div64 (double_of (t / 1000000)) (double_of 1000)) in *.
  pose proof (between_pos _ _ _ Bs) as Ps. pose proof (between_pos _ _ _ Bg) as Pg.
  pose proof uro_pos as U1. pose proof uro_small as U2. cbn [Rpow_def.pow] in Hs. rewrite !Rmult_1_r in Hs.
  assert (By : between (-11) 54 (val64 y)).
  { destruct Bs as [B1 B2]. split.
    - apply Rle_trans with (s * / 2); [|nra]. change (-11)%Z with (-10 + -1)%Z. rewrite bpow_plus. simpl (bpow radix2 (-1)). lra.
    - apply Rle_trans with (s * 2); [nra|]. change 54%Z with (53 + 1)%Z. rewrite bpow_plus. change (bpow radix2 1) with 2. lra. }
  pose proof (between_div _ _ _ _ _ _ Bg By) as Bd. pose proof (between_pos _ _ _ By) as Py.
  destruct (near_div_val 4 (gflop64 n n n) y g ltac:(lia) Py ltac:(apply (between_mid _ _ _) with (3 := Bd); lia) Hg) as [Ff Hv].
  split; [exact Ff|]. cbv zeta. pose proof (v_pos 5) as V5. pose proof (w_ge 5) as W5.
  set (v5 := v 5) in *. set (w5 := w 5) in *. clearbody v5 w5. cbn [Rpow_def.pow]. rewrite !Rmult_1_r.
  destruct Hv as [Hv1 Hv2]. split.
  - eapply Rle_trans; [|exact Hv1]. replace (g / s * v5 / (1 + uro)) with (g * / (s * (1 + uro)) * v5) by (field; lra).
    apply Rmult_le_compat_r; [lra|]. unfold Rdiv. apply Rmult_le_compat_l; [lra|]. apply Rinv_le; lra.
  - eapply Rle_trans; [exact Hv2|]. replace (g / s * w5 / (1 - uro)) with (g * / (s * (1 - uro)) * w5) by (field; lra).
    apply Rmult_le_compat_r; [lra|]. unfold Rdiv. apply Rmult_le_compat_l; [lra|]. apply Rinv_le; [nra|lra].
Qed.
