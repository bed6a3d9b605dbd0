(** Products of matrices of integers are exact in binary64, for every variant and
    every contraction. *)
From Coq Require Import ZArith Reals Psatz.
From Flocq Require Import Core IEEE754.Binary IEEE754.Bits.
From Verif Require Import Base Conc ConcFacts Num Spec SpecTiled SpecContract MCeil PCeil MDouble PDouble SpecApp SpecRound PRound PRound2 MContract PContract PContract2 PContract3 Tools SpecExact MApp.
Local Open Scope R_scope.

#[local] Instance prec53x : Prec_gt_0 53 := eq_refl.
#[local] Instance fexp64_validx : Valid_exp fexp64.
Proof. apply (FLT_exp_valid (-1074) 53). Qed.
#[local] Instance rne_validx : Valid_rnd (BinarySingleNaN.round_mode rne).
Proof. apply valid_rnd_N. Qed.

Lemma abs_IZR z : Rabs (IZR z) = IZR (Z.abs z).
Proof. symmetry. apply abs_IZR. Qed.
Lemma format53 z : (Z.abs z <= 2 ^ 53)%Z -> generic_format radix2 fexp64 (IZR z).
Proof.
  intros Hz. destruct (Z.eq_dec (Z.abs z) (2 ^ 53)) as [E|Hne].
  - assert (Hp : generic_format radix2 fexp64 (bpow radix2 53)) by (apply generic_format_bpow; vm_compute; discriminate).
    assert (Eb : bpow radix2 53 = IZR (2 ^ 53)) by (rewrite <- IZR_Zpower by lia; reflexivity).
    destruct (Z.abs_eq_or_opp z) as [Ea|Ea].
    + replace z with (2 ^ 53)%Z by lia. by rewrite <- Eb.
    + replace z with (- 2 ^ 53)%Z by lia. rewrite opp_IZR, <- Eb. by apply generic_format_opp.
  - replace (IZR z) with (F2R (Float radix2 z 0)) by (unfold F2R; cbn; lra).
    apply (generic_format_FLT radix2 (-1074) 53). exists (Float radix2 z 0); [done|cbn; lia|cbn; lia].
Qed.
Lemma rnd53 z : (Z.abs z <= 2 ^ 53)%Z -> rnd64 (IZR z) = IZR z.
Proof. intros Hz. apply rnd64_id. by apply format53. Qed.
Lemma small53 z : (Z.abs z <= 2 ^ 53)%Z -> Rabs (IZR z) < bpow radix2 1024.
Proof.
  intros Hz. rewrite abs_IZR. apply Rle_lt_trans with (bpow radix2 53).
  - assert (Eb : bpow radix2 53 = IZR (2 ^ 53)) by (rewrite <- IZR_Zpower by lia; reflexivity). rewrite Eb. by apply IZR_le.
  - apply bpow_lt. lia.
Qed.

(** A double that holds the integer [z]; zero is positive. *)
Definition holds (s : binary64) (z : Z) : Prop := finite64 s = true /\ val64 s = IZR z /\ (z = 0%Z -> neg64 s = false).
Lemma positive_sign (x : binary64) : 0 < val64 x -> neg64 x = false.
Proof.
  destruct x as [s|s|s p H|s m e H]; cbn; try lra. intros Hv. destruct s; [|done]. exfalso. revert Hv. apply Rle_not_lt, Rlt_le, F2R_lt_0. done.
Qed.
Lemma negative_sign (x : binary64) : val64 x < 0 -> neg64 x = true.
Proof.
  destruct x as [s|s|s p H|s m e H]; cbn; try lra. intros Hv. destruct s; [done|]. exfalso. revert Hv. apply Rle_not_lt, Rlt_le, F2R_gt_0. done.
Qed.
Lemma sum_sign (s : binary64) (r : R) z : holds s z -> IZR z + r = 0 -> neg64 s = true -> 0 < r.
Proof.
  intros (Hf&Hv&Hz) E Hs. destruct (Z.eq_dec z 0) as [->|Hne]; [by rewrite Hz in Hs|].
  assert (Hlt : IZR z < 0); [|lra]. destruct (Rtotal_order (IZR z) 0) as [Hl|[He|Hg]]; [done| |].
  - exfalso. apply Hne. by apply eq_IZR.
  - rewrite <- Hv in Hg. apply positive_sign in Hg. congruence.
Qed.
Lemma double_of_holds z : (Z.abs z <= 2 ^ 53)%Z -> holds (double_of z) z.
Proof.
  intros Hz. pose proof (binary_normalize_correct 53 1024 eq_refl eq_refl rne z 0 false) as Hc.
  assert (F2R (Float radix2 z 0) = IZR z) as EF by (unfold F2R; simpl; lra). rewrite EF in Hc.
  rewrite rnd53 in Hc by done. rewrite Rlt_bool_true in Hc by (by apply small53).
  destruct Hc as (Hv&Hf&Hs). split; [exact Hf|]. split; [exact Hv|]. intros ->. etransitivity; [exact Hs|]. by rewrite Rcompare_Eq.
Qed.
Lemma holds_unique s t z : holds s z -> holds t z -> s = t.
Proof.
  intros (Hf&Hv&Hz) (Hf'&Hv'&Hz'). apply B2R_Bsign_inj; [done|done|by rewrite Hv, Hv'|].
  destruct (Z.eq_dec z 0) as [E|Hne]; [by rewrite Hz, Hz'|].
  assert (Hn : IZR z <> 0) by (intros E; apply Hne; by apply eq_IZR). destruct (Rdichotomy _ _ Hn) as [Hl|Hg].
  - etransitivity; [apply negative_sign; by rewrite Hv|]. symmetry. apply negative_sign. by rewrite Hv'.
  - etransitivity; [apply positive_sign; by rewrite Hv|]. symmetry. apply positive_sign. by rewrite Hv'.
Qed.
Lemma holds_double s z : (Z.abs z <= 2 ^ 53)%Z -> holds s z -> s = double_of z.
Proof. intros Hz Hs. apply (holds_unique _ _ z); [done|]. by apply double_of_holds. Qed.

(** ** One operation *)
Lemma add_holds s p a b : holds s a -> finite64 p = true -> val64 p = IZR b -> (Z.abs (a + b) <= 2 ^ 53)%Z -> holds (nadd s p) (a + b).
Proof.
  intros Hs Hp Vp Hab. pose proof Hs as (Fs&Vs&_).
  pose proof (Bplus_correct 53 1024 eq_refl eq_refl binop_nan_pl64 rne s p Fs Hp) as Hc.
  change (Bplus 53 1024 _ _ binop_nan_pl64 rne s p) with (nadd s p) in Hc.
  rewrite Vs, Vp, <- plus_IZR, rnd53 in Hc by done. rewrite Rlt_bool_true in Hc by (by apply small53).
  destruct Hc as (Hv&Hf&Hsg). split; [done|]. split; [done|]. intros E. rewrite E in Hsg. rewrite Rcompare_Eq in Hsg by done.
  etransitivity; [exact Hsg|]. destruct (neg64 s) eqn:Es; [|done]. cbn [andb].
  apply positive_sign. rewrite Vp. apply (sum_sign s (IZR b) a); [done| |done]. by rewrite <- plus_IZR, E.
Qed.
Lemma product_sign (x y : binary64) : finite64 x = true -> finite64 y = true -> 0 < val64 x * val64 y -> xorb (neg64 x) (neg64 y) = false.
Proof.
  intros Fx Fy Hp. destruct (Rtotal_order (val64 x) 0) as [Hx|[Hx|Hx]].
  - assert (Hy : val64 y < 0) by nra. rewrite (negative_sign _ Hx), (negative_sign _ Hy). done.
  - rewrite Hx in Hp. lra.
  - assert (Hy : 0 < val64 y) by nra. rewrite (positive_sign _ Hx), (positive_sign _ Hy). done.
Qed.
Lemma muladd_holds s x y s' a b : muladd s x y s' -> holds s a -> finite64 x = true -> finite64 y = true ->
  val64 x * val64 y = IZR b -> (Z.abs b <= 2 ^ 53)%Z -> (Z.abs (a + b) <= 2 ^ 53)%Z -> holds s' (a + b).
Proof.
  intros Hm Hs Fx Fy Vb Hb Hab. destruct Hm as [->| ->].
  - apply add_holds; [done| | |done].
    + apply mul_finite; [done..|]. rewrite Vb, rnd53 by done. by apply small53.
    + pose proof (mul_finite x y Fx Fy) as Hf. rewrite Vb, rnd53 in Hf by done. specialize (Hf (small53 _ Hb)).
      destruct (mul_value _ _ Hf) as (_&_&->). by rewrite Vb, rnd53.
  - pose proof Hs as (Fs&Vs&_).
    pose proof (Bfma_correct 53 1024 eq_refl eq_refl ternop_nan_pl64 rne x y s Fx Fy Fs) as Hc. cbv zeta in Hc.
    change (Bfma 53 1024 _ _ ternop_nan_pl64 rne x y s) with (fma64 x y s) in Hc.
    rewrite Vs, Vb, <- plus_IZR, Z.add_comm, rnd53 in Hc by done. rewrite Rlt_bool_true in Hc by (by apply small53).
    destruct Hc as (Hv&Hf&Hsg). split; [done|]. split; [done|]. intros E. rewrite E in Hsg. rewrite Rcompare_Eq in Hsg by done.
    etransitivity; [exact Hsg|]. unfold Bfma_szero, BinarySingleNaN.Bfma_szero. rewrite !Bsign_B2BSN by (clear -Fx Fy Fs; by destruct x, y, s).
    cbv zeta. destruct (neg64 s) eqn:Es.
    + assert (Hp : 0 < val64 x * val64 y). { rewrite Vb. apply (sum_sign s (IZR b) a); [done| |done]. by rewrite <- plus_IZR, E. }
      rewrite (product_sign x y Fx Fy Hp). done.
    + destruct (xorb _ _); done.
Qed.

(** ** Sums *)
Lemma rsum_abs_mono (f : nat -> R) ks k : rsum (fun k => Rabs (f k)) ks <= rsum (fun k => Rabs (f k)) (ks ++ [k]).
Proof. rewrite rsum_app. cbn [rsum foldr]. pose proof (Rabs_pos (f k)). lra. Qed.
Section Sums.
  Context (x y : nat -> binary64) (g : nat -> Z).
  Hypothesis Hx : forall k, finite64 (x k) = true.
  Hypothesis Hy : forall k, finite64 (y k) = true.
  Hypothesis Hg : forall k, val64 (x k) * val64 (y k) = IZR (g k).
  Definition zs (ks : list nat) : Z := foldr (fun k s => (g k + s)%Z) 0%Z ks.
  Definition za (ks : list nat) : Z := foldr (fun k s => (Z.abs (g k) + s)%Z) 0%Z ks.
  Lemma zs_app ks ks' : zs (ks ++ ks') = (zs ks + zs ks')%Z.
  Proof. unfold zs in *. induction ks as [|k ks IH]; [done|]. cbn [Datatypes.app foldr]. rewrite IH. lia. Qed.
  Lemma za_app ks ks' : za (ks ++ ks') = (za ks + za ks')%Z.
  Proof. unfold za in *. induction ks as [|k ks IH]; [done|]. cbn [Datatypes.app foldr]. rewrite IH. lia. Qed.
  Lemma za_nonneg ks : (0 <= za ks)%Z.
  Proof. unfold zs, za in *. induction ks as [|k ks IH]; cbn [foldr]; lia. Qed.
  Lemma zs_za ks : (Z.abs (zs ks) <= za ks)%Z.
  Proof. unfold zs, za in *. induction ks as [|k ks IH]; cbn [foldr]; lia. Qed.
  Lemma zs_rsum ks : rsum (fun k => val64 (x k) * val64 (y k)) ks = IZR (zs ks).
  Proof. induction ks as [|k ks IH]; [done|]. cbn [rsum foldr zs]. rewrite plus_IZR, Hg. f_equal. exact IH. Qed.
  Lemma za_rsum ks : rsum (fun k => Rabs (val64 (x k) * val64 (y k))) ks = IZR (za ks).
  Proof. induction ks as [|k ks IH]; [done|]. cbn [rsum foldr za]. rewrite plus_IZR, Hg, abs_IZR. f_equal. exact IH. Qed.
  Lemma zero_holds : holds nzero 0.
  Proof. done. Qed.
  Lemma msum_holds ks v : msum x y ks v -> (za ks <= 2 ^ 53)%Z -> holds v (zs ks).
  Proof.
    induction 1 as [|ks k s s' Hs IH Hm]; intros Hz; [exact zero_holds|]. rewrite za_app in Hz. cbn [za foldr] in Hz.
    rewrite zs_app. cbn [zs foldr]. rewrite Z.add_0_r. pose proof (za_nonneg ks). pose proof (zs_za ks).
    apply (muladd_holds _ _ _ _ _ _ Hm); [apply IH; lia|done|done|done|lia|lia].
  Qed.
  Lemma csum_holds (ch : nat -> list nat) qs v : csum (fun q => msum x y (ch q)) qs v -> (za (qs ≫= ch) <= 2 ^ 53)%Z ->
    holds v (zs (qs ≫= ch)).
  Proof.
    induction 1 as [|qs q s t Hs IH Ht]; intros Hz; [exact zero_holds|].
    rewrite bind_app in *. cbn [mbind list_bind] in *. rewrite app_nil_r in *. rewrite za_app in Hz.
    rewrite zs_app. pose proof (za_nonneg (qs ≫= ch)). pose proof (za_nonneg (ch q)).
    pose proof (zs_za (qs ≫= ch)). pose proof (zs_za (ch q)).
    destruct (msum_holds _ _ Ht ltac:(lia)) as (Ft&Vt&_). apply add_holds; [apply IH; lia|done|done|lia].
  Qed.
  Lemma join_chunks b Q : seq 0 Q ≫= (fun q => seq (q * b) b) = seq 0 (Q * b).
  Proof.
    clear. induction Q as [|Q IH]; [done|]. rewrite seq_S, bind_app, IH. cbn [mbind list_bind Nat.add].
    rewrite app_nil_r, Nat.mul_succ_l, seq_app. done.
  Qed.
End Sums.

(** ** One entry *)
Section Entry.
  Context (N : nat) (A B : list binary64) (i j : nat) (tr : bool).
  Hypothesis HA : (length A = N * N)%nat.
  Hypothesis HB : (length B = N * N)%nat.
  Hypothesis Hi : (i < N)%nat.
  Hypothesis Hj : (j < N)%nat.
  Hypothesis HzA : integral A.
  Hypothesis HzB : integral B.
  Hypothesis Hmag : magnitude tr N A B i j <= bpow radix2 53.
  Let x (k : nat) : binary64 := if decide (k < N)%nat then ent N A i k else nzero.
  Let y (k : nat) : binary64 := if decide (k < N)%nat then if tr then ent N B j k else ent N B k j else nzero.
  Lemma x_int k : finite64 (x k) = true /\ exists z, val64 (x k) = IZR z.
  Proof. unfold x. destruct (decide _); [apply HzA; by apply ent_in|]. split; [done|]. by exists 0%Z. Qed.
  Lemma y_int k : finite64 (y k) = true /\ exists z, val64 (y k) = IZR z.
  Proof. unfold y. destruct (decide _); [apply HzB; destruct tr; by apply ent_in|]. split; [done|]. by exists 0%Z. Qed.
  Let g (k : nat) : Z := Zfloor (val64 (x k) * val64 (y k)).
  Lemma g_spec k : val64 (x k) * val64 (y k) = IZR (g k).
  Proof. unfold g. destruct (x_int k) as (_&z&->). destruct (y_int k) as (_&z'&->). by rewrite <- mult_IZR, Zfloor_IZR. Qed.
  Lemma g_out k : (N <= k)%nat -> g k = 0%Z.
  Proof. intros Hk. apply eq_IZR. rewrite <- g_spec. unfold x. rewrite decide_False by lia. change (val64 nzero) with 0. by rewrite Rmult_0_l. Qed.
  Lemma g_exact : IZR (zs g (seq 0 N)) = exact_entry tr N A B i j.
  Proof.
    rewrite <- (zs_rsum x y g g_spec). unfold exact_entry, factor_b. apply rsum_ext. intros k Hk%elem_of_seq. unfold x, y. rewrite !decide_True by lia. done.
  Qed.
  Lemma g_bound : (za g (seq 0 N) <= 2 ^ 53)%Z.
  Proof.
    apply le_IZR. rewrite <- (za_rsum x y g g_spec). eapply Rle_trans; [|eapply Rle_trans; [exact Hmag|]].
    - right. unfold magnitude, factor_b. apply rsum_ext. intros k Hk%elem_of_seq. unfold x, y. rewrite !decide_True by lia. done.
    - right. rewrite <- IZR_Zpower by lia. reflexivity.
  Qed.
  Lemma pad_zs M : (N <= M)%nat -> zs g (seq 0 M) = zs g (seq 0 N).
  Proof.
    intros HM. replace M with (N + (M - N))%nat by lia. rewrite seq_app, zs_app. cbn [Nat.add].
    assert (H0 : forall n a, (N <= a)%nat -> zs g (seq a n) = 0%Z).
    { intros n. induction n as [|n IH]; intros a Ha; [done|]. cbn [seq zs foldr]. rewrite g_out by lia. apply IH. lia. }
    rewrite (H0 (M - N)%nat N) by lia. lia.
  Qed.
  Lemma pad_za M : (N <= M)%nat -> za g (seq 0 M) = za g (seq 0 N).
  Proof.
    intros HM. replace M with (N + (M - N))%nat by lia. rewrite seq_app, za_app. cbn [Nat.add].
    assert (H0 : forall n a, (N <= a)%nat -> za g (seq a n) = 0%Z).
    { intros n. induction n as [|n IH]; intros a Ha; [done|]. cbn [seq za foldr]. rewrite g_out by lia. apply IH. lia. }
    rewrite (H0 (M - N)%nat N) by lia. lia.
  Qed.
  Lemma compiled_exact q v : order_ok N tr q -> compiled (entry_in tr q N (TNum <$> A) (TNum <$> B) i j) v ->
    exists z, exact_entry tr N A B i j = IZR z /\ (Z.abs z <= 2 ^ 53)%Z /\ v = double_of z.
  Proof.
    intros Hq Hv. exists (zs g (seq 0 N)). split; [by rewrite g_exact|].
    assert (Hz : (Z.abs (zs g (seq 0 N)) <= 2 ^ 53)%Z) by (etransitivity; [apply zs_za|exact g_bound]).
    split; [done|]. apply holds_double; [done|].
    destruct (entry_form N A B i j HA HB Hi Hj tr q Hq) as [E|(b&Q&Hb&HQ&E)]; rewrite E in Hv.
    - apply compiled_msum in Hv. apply (msum_holds x y g (fun k => proj1 (x_int k)) (fun k => proj1 (y_int k)) g_spec _ _ Hv g_bound).
    - apply compiled_csum in Hv.
      pose proof (csum_holds x y g (fun k => proj1 (x_int k)) (fun k => proj1 (y_int k)) g_spec _ _ _ Hv) as Hc.
      rewrite join_chunks, pad_za, pad_zs in Hc by done. apply Hc, g_bound.
  Qed.
End Entry.

(** ** The variants *)
Section Variants.
  Context (N : nat) (A B : list binary64).
  Hypothesis HA : (length A = N * N)%nat.
  Hypothesis HB : (length B = N * N)%nat.
  Hypothesis HzA : integral A.
  Hypothesis HzB : integral B.
  Lemma integer_exact o G v : o_n o = N -> flag_ok o v -> suitable o G v -> within_53_bits (multiplies o v) N A B ->
    always_tol (tolerated v) (computation o G v (TNum <$> A) (TNum <$> B)) (fun D =>
      forall C, Forall2 compiled D C -> (length C = N * N)%nat /\ forall i j, (i < N)%nat -> (j < N)%nat ->
        exists z, exact_entry (multiplies o v) N A B i j = IZR z /\ C !! (i * N + j)%nat = Some (double_of z)).
  Proof.
    intros Ho Hf Hs Hm. destruct (same_order o G v Hf Hs) as (q&Hq&Hal). rewrite Ho in *.
    eapply must_mono; [|exact (Hal term _ _ _ (term_length _ _ HA) (term_length _ _ HB))].
    intros D m HD C HC. split; [rewrite <- (Forall2_length _ _ _ HC); by destruct HD|]. intros i j Hi Hj.
    destruct (compiled_entry N _ _ _ _ _ HD HC Hi Hj) as (c&Hc&Hcc).
    destruct (compiled_exact N A B i j _ HA HB Hi Hj HzA HzB (Hm i j Hi Hj) _ c (Hq i j Hi Hj) Hcc) as (z&Ez&_&->). by exists z.
  Qed.
  Lemma integer_value o G v : o_n o = N -> flag_ok o v -> suitable o G v -> within_53_bits (multiplies o v) N A B ->
    always_tol (tolerated v) (computation o G v A B) (fun C => (length C = N * N)%nat /\ forall i j, (i < N)%nat -> (j < N)%nat ->
      exists c, C !! (i * N + j)%nat = Some c /\ finite64 c = true /\ val64 c = exact_entry (multiplies o v) N A B i j).
  Proof.
    intros Ho Hf Hs Hm. destruct (same_order o G v Hf Hs) as (q&Hq&Hal). rewrite Ho in *.
    eapply must_mono; [|exact (Hal binary64 _ _ _ HA HB)]. intros C m HC. split; [by destruct HC|]. intros i j Hi Hj.
    destruct HC as [_ HC]. eexists. split; [exact (HC i j Hi Hj)|]. rewrite <- separate_entry.
    destruct (compiled_exact N A B i j _ HA HB Hi Hj HzA HzB (Hm i j Hi Hj) _ _ (Hq i j Hi Hj) (separate_compiled _)) as (z&Ez&Hz&Ed).
    rewrite Ed, Ez. by destruct (double_of_holds z Hz) as (Hfin&Hv&_).
  Qed.
  Lemma integer_same_bits o o' G G' v v' : o_n o = N -> o_n o' = N -> flag_ok o v -> flag_ok o' v' -> suitable o G v -> suitable o' G' v' ->
    multiplies o v = multiplies o' v' -> within_53_bits (multiplies o v) N A B ->
    always_tol (tolerated v) (computation o G v (TNum <$> A) (TNum <$> B)) (fun D =>
      always_tol (tolerated v') (computation o' G' v' (TNum <$> A) (TNum <$> B)) (fun D' =>
        forall C C', Forall2 compiled D C -> Forall2 compiled D' C' -> C = C')).
  Proof.
    intros Ho Ho' Hf Hf' Hs Hs' Hmul Hm.
    eapply must_mono; [|exact (integer_exact o G v Ho Hf Hs Hm)]. intros D m HD. rewrite Hmul in Hm.
    eapply must_mono; [|exact (integer_exact o' G' v' Ho' Hf' Hs' Hm)]. intros D' m' HD' C C' HC HC'.
    destruct (HD C HC) as [HL HE]. destruct (HD' C' HC') as [HL' HE'].
    apply (is_matrix_unique N (fun i j => default nzero (C !! (i * N + j)%nat)) C C').
    - split; [done|]. intros i j Hi Hj. destruct (HE i j Hi Hj) as (z&_&->). done.
    - split; [done|]. intros i j Hi Hj. destruct (HE i j Hi Hj) as (z&Ez&->). destruct (HE' i j Hi Hj) as (z'&Ez'&->).
      rewrite Hmul, Ez' in Ez. apply eq_IZR in Ez. by subst.
  Qed.
End Variants.

(** ** One more is too much *)
Lemma not_double (c : binary64) : val64 c <> IZR (2 ^ 53 + 1).
Proof.
  destruct c as [s|s|s p H|s m e H]; try (cbn; intros E; apply (eq_IZR 0) in E; discriminate).
  intros E. unfold val64, B2R, F2R in E. cbn [Fnum Fexp] in E.
  assert (Hm : (Z.abs (cond_Zopp s (Zpos m)) < 2 ^ 53)%Z).
  { rewrite abs_cond_Zopp. cbn [Z.abs]. clear E. pose proof H as H1. unfold SpecFloat.bounded in H1. apply andb_prop in H1 as [H1 _].
    unfold SpecFloat.canonical_mantissa in H1. apply Zeq_bool_eq in H1.
    rewrite Digits.Zpos_digits2_pos in H1. unfold SpecFloat.fexp, SpecFloat.emin in H1.
    pose proof (Digits.Zdigits_correct radix2 (Zpos m)) as [_ Hu]. cbn [Z.abs] in Hu.
    assert (Hle : (Digits.Zdigits radix2 (Zpos m) <= 53)%Z) by (clear -H1; lia).
    eapply Z.lt_le_trans; [exact Hu|]. apply (Zpower_le radix2). done. }
  set (M := cond_Zopp s (Zpos m)) in *. clearbody M. destruct (Z_le_gt_dec e 0) as [He|He].
  - assert (Hb : Rabs (IZR M * bpow radix2 e) <= IZR (2 ^ 53)).
    { rewrite Rabs_mult, (Rabs_pos_eq (bpow _ _)) by apply bpow_ge_0. rewrite <- (Rmult_1_r (IZR (2 ^ 53))).
      apply Rmult_le_compat; [apply Rabs_pos|apply bpow_ge_0|rewrite abs_IZR; apply IZR_le; lia|].
      change 1 with (bpow radix2 0). by apply bpow_le. }
    rewrite E, abs_IZR in Hb. apply le_IZR in Hb. revert Hb. vm_compute. intros Hb. by apply Hb.
  - rewrite <- IZR_Zpower, <- mult_IZR in E by lia. apply eq_IZR in E.
    replace e with (Z.succ (e - 1)) in E by lia. rewrite Z.pow_succ_r in E by lia. change (radix_val radix2) with 2%Z in E.
    assert (HZ : (Z.odd (2 ^ 53 + 1) = true)%Z) by reflexivity. rewrite <- E in HZ.
    rewrite Z.odd_mul, Z.odd_mul in HZ. cbn in HZ. rewrite andb_false_r in HZ. discriminate.
Qed.
Definition big_A : list binary64 := [double_of (2 ^ 53); double_of 1; double_of 0; double_of 0].
Definition big_B : list binary64 := [double_of 1; double_of 0; double_of 1; double_of 0].
Lemma too_big : integral big_A /\ integral big_B /\
  (forall i j, (i < 2)%nat -> (j < 2)%nat -> magnitude false 2 big_A big_B i j <= bpow radix2 53 + 1) /\
  exact_entry false 2 big_A big_B 0 0 = IZR (2 ^ 53 + 1).
Proof.
  assert (HH : forall z, (Z.abs z <= 2 ^ 53)%Z -> finite64 (double_of z) = true /\ val64 (double_of z) = IZR z).
  { intros z Hz. destruct (double_of_holds z Hz) as (H1&H2&_). done. }
  destruct (HH (2 ^ 53)%Z) as [F1 V1]; [by vm_compute|]. destruct (HH 1%Z) as [F2 V2]; [by vm_compute|]. destruct (HH 0%Z) as [F3 V3]; [by vm_compute|].
  set (p := double_of (2 ^ 53)) in *. set (o := double_of 1) in *. set (n := double_of 0) in *.
  assert (Eb : bpow radix2 53 = IZR (2 ^ 53)) by (rewrite <- IZR_Zpower by lia; reflexivity).
  assert (HA : big_A = [p; o; n; n]) by reflexivity. assert (HB : big_B = [o; n; o; n]) by reflexivity.
  rewrite HA, HB. clearbody p o n. clear HA HB.
  split; [|split; [|split]].
  - intros x Hx. repeat (apply elem_of_cons in Hx as [->|Hx]; [split; [done|eauto]|]). by apply elem_of_nil in Hx.
  - intros x Hx. repeat (apply elem_of_cons in Hx as [->|Hx]; [split; [done|eauto]|]). by apply elem_of_nil in Hx.
  - intros i j Hi Hj. rewrite Eb. unfold magnitude, factor_b, rsum. cbn [seq foldr].
    destruct i as [|[|i]]; [| |lia]; (destruct j as [|[|j]]; [| |lia]); cbn; rewrite ?V1, ?V2, ?V3; rewrite ?Rmult_1_r, ?Rmult_0_r, ?Rmult_0_l, ?Rabs_R0, ?Rabs_R1;
      try rewrite (Rabs_pos_eq (IZR (2 ^ 53))) by (apply IZR_le; by vm_compute); try lra; change (Z.pow_pos 2 53) with (2 ^ 53)%Z;
      assert (0 <= IZR (2 ^ 53)) by (apply IZR_le; by vm_compute); lra.
  - unfold exact_entry, factor_b, rsum. cbn [seq foldr]. cbn. rewrite V1, V2. rewrite plus_IZR. change (Z.pow_pos 2 53) with (2 ^ 53)%Z. lra.
Qed.
