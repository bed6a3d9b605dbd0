(** Printing of doubles: the number printed is the closest one with P digits. *)
From Coq Require Import ZArith Reals Lra Lia Ascii String.
From Flocq Require Import Core IEEE754.Binary IEEE754.Bits.
From Verif Require Import Base Tools MDouble MPrint SpecPrint PPrint.
Local Open Scope Z_scope.

Lemma nearest_spec num den : 0 < den -> 2 * Z.abs (nearest num den * den - num) <= den.
Proof.
  intros Hd. unfold nearest. pose proof (Z.div_mod num den ltac:(lia)) as H1. pose proof (Z.mod_pos_bound num den Hd) as H2.
  set (q := num / den) in *. set (r := num mod den) in *. clearbody q r.
  assert (forall k, (q + k) * den - num = k * den - r) as Hk by (intros; lia).
  destruct (Z.compare_spec (2 * r) den) as [E|E|E].
  - destruct (Z.even q); [replace q with (q + 0) by lia|]; rewrite Hk; lia.
  - replace q with (q + 0) by lia. rewrite Hk. lia.
  - rewrite Hk. lia.
Qed.

Lemma log10_up_spec fuel q : 1 <= q < 10 ^ (Z.of_nat fuel + 1) ->
  0 <= log10_up fuel q /\ 10 ^ log10_up fuel q <= q < 10 ^ (log10_up fuel q + 1).
Proof.
  revert q; induction fuel as [|fuel IH]; intros q Hq; cbn [log10_up].
  - change (10 ^ (Z.of_nat 0 + 1)) with 10 in Hq. cbn. lia.
  - destruct (Z.ltb_spec q 10) as [H|H]; [cbn; lia|].
    rewrite Nat2Z.inj_succ, <- Z.add_1_l, <- Z.add_assoc, Z.pow_add_r in Hq by lia. change (10 ^ 1) with 10 in Hq.
    destruct (IH (q / 10)) as (H1&H2&H3).
    { split; [apply Z.div_le_lower_bound; lia|]. apply Z.div_lt_upper_bound; lia. }
    set (X := log10_up fuel (q / 10)) in *. clearbody X.
    replace (1 + X + 1) with (1 + (X + 1)) by lia. rewrite !Z.pow_add_r in * by lia. change (10 ^ 1) with 10 in *.
    pose proof (Z.div_mod q 10 ltac:(lia)). pose proof (Z.mod_pos_bound q 10 ltac:(lia)).
    split; [lia|]. lia.
Qed.
Lemma log10_down_spec fuel num den : 0 < num < 10 * den -> den <= num * 10 ^ Z.of_nat fuel ->
  log10_down fuel num den <= 0 /\ den <= num * 10 ^ (- log10_down fuel num den) < 10 * den.
Proof.
  revert num; induction fuel as [|fuel IH]; intros num H1 H2; cbn [log10_down].
  - change (10 ^ (Z.of_nat 0)) with 1 in *. change (10 ^ (- 0)) with 1. lia.
  - destruct (Z.leb_spec den num) as [H|H]; [change (10 ^ (- 0)) with 1; lia|].
    rewrite Nat2Z.inj_succ, Z.pow_succ_r in H2 by lia.
    destruct (IH (10 * num)) as [H3 H4]; [lia|lia|].
    set (X := log10_down fuel (10 * num) den) in *. clearbody X.
    replace (- (X - 1)) with (Z.succ (- X)) by lia. rewrite Z.pow_succ_r by lia. split; [lia|].
    replace (num * (10 * 10 ^ (- X))) with (10 * num * 10 ^ (- X)) by ring. done.
Qed.

Local Open Scope R_scope.
Definition ratio (num den : Z) : R := IZR num / IZR den.

Lemma log10_spec num den : (0 < num)%Z -> (0 < den)%Z ->
  bpow ten (log10 num den) <= ratio num den < bpow ten (log10 num den + 1).
Proof.
  intros Hn Hd. unfold log10, ratio. pose proof (IZR_lt _ _ Hd) as Hd'. pose proof (IZR_lt _ _ Hn) as Hn'.
  destruct (Z.leb_spec den num) as [H|H].
  - assert (1 <= num / den)%Z as Hq by (apply Z.div_le_lower_bound; lia).
    destruct (log10_up_spec (Z.to_nat (Z.log2 (num / den))) (num / den)) as (H1&H2&H3).
    { split; [done|]. rewrite Z2Nat.id by apply Z.log2_nonneg.
      pose proof (proj2 (Z.log2_spec (num / den) ltac:(lia))) as H4. rewrite <- Z.add_1_r in H4.
      eapply Z.lt_le_trans; [exact H4|]. apply Z.pow_le_mono_l. pose proof (Z.log2_nonneg (num / den)). lia. }
    set (X := log10_up _ _) in *. clearbody X. rewrite !bpow_ten by lia.
    pose proof (Z.div_mod num den ltac:(lia)). pose proof (Z.mod_pos_bound num den Hd).
    split.
    + apply (Rmult_le_reg_r (IZR den)); [done|]. unfold Rdiv. rewrite Rmult_assoc, Rinv_l, Rmult_1_r by lra.
      rewrite <- mult_IZR. apply IZR_le. nia.
    + apply (Rmult_lt_reg_r (IZR den)); [done|]. unfold Rdiv. rewrite Rmult_assoc, Rinv_l, Rmult_1_r by lra.
      rewrite <- mult_IZR. apply IZR_lt. nia.
  - destruct (log10_down_spec (S (Z.to_nat (Z.log2 den))) num den) as (H1&H2&H3).
    { lia. }
    { rewrite Nat2Z.inj_succ, Z2Nat.id by apply Z.log2_nonneg.
      pose proof (proj2 (Z.log2_spec den Hd)) as H4.
      assert (2 ^ Z.succ (Z.log2 den) <= 10 ^ Z.succ (Z.log2 den))%Z.
      { apply Z.pow_le_mono_l. pose proof (Z.log2_nonneg den). lia. }
      nia. }
    set (X := log10_down _ _ _) in *. clearbody X.
    assert (bpow ten X * bpow ten (- X) = 1) as Hu by (rewrite <- bpow_plus, Z.add_opp_diag_r; done).
    rewrite (bpow_plus ten X 1). change (bpow ten 1) with (IZR 10).
    pose proof (bpow_ten_pos X) as HX. pose proof (bpow_ten_pos (- X)) as HX'. rewrite (bpow_ten (- X)) in Hu, HX' by lia.
    apply IZR_le in H2. apply IZR_lt in H3. rewrite !mult_IZR in *.
    set (a := bpow ten X) in *. set (b := IZR (10 ^ (- X))) in *. clearbody a b.
    split.
    + apply (Rmult_le_reg_r (IZR den)); [done|]. unfold Rdiv. rewrite Rmult_assoc, Rinv_l, Rmult_1_r by lra.
      apply (Rmult_le_reg_r b); [done|]. replace (a * IZR den * b) with (IZR den * (a * b)) by ring. rewrite Hu. lra.
    + apply (Rmult_lt_reg_r (IZR den)); [done|]. unfold Rdiv. rewrite Rmult_assoc, Rinv_l, Rmult_1_r by lra.
      apply (Rmult_lt_reg_r b); [done|]. replace (a * 10 * IZR den * b) with (10 * IZR den * (a * b)) by ring. rewrite Hu. lra.
Qed.

(** D is x scaled by 10^k and rounded. *)
Definition scaled (num den k : Z) : Z :=
  if (0 <=? k)%Z then nearest (num * 10 ^ k) den else nearest num (den * 10 ^ (- k)).
Lemma nearest_real num den : (0 < den)%Z -> Rabs (IZR (nearest num den) - ratio num den) <= / 2.
Proof.
  intros Hd. pose proof (nearest_spec num den Hd) as H. pose proof (IZR_lt _ _ Hd) as Hd'.
  apply IZR_le in H. rewrite mult_IZR, abs_IZR, minus_IZR, mult_IZR in H. unfold ratio.
  replace (IZR (nearest num den) - IZR num / IZR den) with ((IZR (nearest num den) * IZR den - IZR num) * / IZR den) by (field; lra).
  rewrite Rabs_mult, (Rabs_pos_eq (/ IZR den)) by (left; by apply Rinv_0_lt_compat).
  apply (Rmult_le_reg_r (IZR den)); [done|]. rewrite Rmult_assoc, Rinv_l by lra. lra.
Qed.
Lemma scaled_real num den k : (0 < den)%Z -> Rabs (IZR (scaled num den k) - ratio num den * bpow ten k) <= / 2.
Proof.
  intros Hd. pose proof (IZR_lt _ _ Hd) as Hd'. unfold scaled. destruct (Z.leb_spec 0 k) as [H|H].
  - rewrite bpow_ten by done. replace (ratio num den * IZR (10 ^ k)) with (ratio (num * 10 ^ k) den).
    { by apply nearest_real. } unfold ratio. rewrite mult_IZR. field. lra.
  - assert (0 < 10 ^ (- k))%Z as Hp by (apply Z.pow_pos_nonneg; lia). pose proof (IZR_lt _ _ Hp) as Hp'.
    assert (bpow ten k = / IZR (10 ^ (- k))) as ->.
    { rewrite <- bpow_ten by lia. rewrite <- bpow_opp, Z.opp_involutive. done. }
    replace (ratio num den * / IZR (10 ^ (- k))) with (ratio num (den * 10 ^ (- k))).
    { apply nearest_real. lia. } unfold ratio. rewrite mult_IZR. field. split; lra.
Qed.

Lemma decimal_spec P num den : (0 < P)%nat -> (0 < num)%Z -> (0 < den)%Z ->
  let '(D, X) := decimal P num den in
  (10 ^ (Z.of_nat P - 1) <= D < 10 ^ Z.of_nat P)%Z /\
  exists X0, (X0 <= X <= X0 + 1)%Z /\ bpow ten X0 <= ratio num den < bpow ten (X0 + 1) /\
    Rabs (IZR D * bpow ten (X - Z.of_nat P + 1) - ratio num den) <= / 2 * bpow ten (X0 - Z.of_nat P + 1).
Proof.
  intros HP Hn Hd. unfold decimal. pose proof (log10_spec num den Hn Hd) as [L1 L2].
  set (X0 := log10 num den) in *. clearbody X0. set (p := Z.of_nat P) in *. assert (1 <= p)%Z as Hp by lia. clearbody p.
  fold (scaled num den (p - 1 - X0)). pose proof (scaled_real num den (p - 1 - X0) Hd) as HD.
  set (D := scaled _ _ _) in *. clearbody D. set (x := ratio num den) in *. clearbody x.
  assert (bpow ten (X0 - p + 1) * bpow ten (p - 1 - X0) = 1) as Hu.
  { rewrite <- bpow_plus. replace (X0 - p + 1 + (p - 1 - X0))%Z with 0%Z by lia. done. }
  pose proof (bpow_ten_pos (p - 1 - X0)) as Hpos. pose proof (bpow_ten_pos (X0 - p + 1)) as Hpos'.
  assert (IZR (10 ^ (p - 1)) = bpow ten X0 * bpow ten (p - 1 - X0)) as E1.
  { rewrite <- bpow_plus, <- bpow_ten by lia. f_equal. lia. }
  assert (IZR (10 ^ p) = bpow ten (X0 + 1) * bpow ten (p - 1 - X0)) as E2.
  { rewrite <- bpow_plus, <- bpow_ten by lia. f_equal. lia. }
  apply Rabs_le_inv in HD as HD2. destruct HD2 as [HD2 HD3].
  assert (10 ^ (p - 1) <= D)%Z as B1.
  { enough (10 ^ (p - 1) < D + 1)%Z by lia. apply lt_IZR. rewrite plus_IZR, E1.
    pose proof (Rmult_le_compat_r _ _ _ (Rlt_le _ _ Hpos) L1). lra. }
  assert (D <= 10 ^ p)%Z as B2.
  { enough (D < 10 ^ p + 1)%Z by lia. apply lt_IZR. rewrite plus_IZR, E2.
    pose proof (Rmult_lt_compat_r _ _ _ Hpos L2). lra. }
  assert (Rabs (IZR D * bpow ten (X0 - p + 1) - x) <= / 2 * bpow ten (X0 - p + 1)) as HE.
  { replace (IZR D * bpow ten (X0 - p + 1) - x) with ((IZR D - x * bpow ten (p - 1 - X0)) * bpow ten (X0 - p + 1)).
    2:{ rewrite Rmult_minus_distr_r. f_equal. rewrite Rmult_assoc, (Rmult_comm (bpow ten (p - 1 - X0))), Hu. ring. }
    rewrite Rabs_mult, (Rabs_pos_eq (bpow _ _)) by lra. apply Rmult_le_compat_r; lra. }
  destruct (Z.eqb_spec D (10 ^ p)) as [->|Hne].
  - split. { split; [lia|]. apply Z.pow_lt_mono_r; lia. }
    exists X0. split; [lia|]. split; [done|].
    replace (IZR (10 ^ (p - 1)) * bpow ten (X0 + 1 - p + 1)) with (IZR (10 ^ p) * bpow ten (X0 - p + 1)); [done|].
    rewrite <- !bpow_ten, <- !bpow_plus by lia. f_equal. lia.
  - split; [lia|]. exists X0. split; [lia|]. done.
Qed.

(** Among the numbers with P digits, a multiple of the last digit's unit within half
    a unit is the closest. *)
Lemma closest_intro P x X0 j : (0 < P)%nat -> bpow ten X0 <= x < bpow ten (X0 + 1) ->
  let u := bpow ten (X0 - Z.of_nat P + 1) in
  short_decimal P (IZR j * u) -> Rabs (IZR j * u - x) <= / 2 * u -> closest_decimal P x (IZR j * u).
Proof.
  intros HP Hx u Hs He. split; [done|].
  assert (0 < u) as Hu by apply bpow_ten_pos.
  assert (forall i, Rabs (IZR j * u - x) <= Rabs (IZR i * u - x)) as Hgrid.
  { intros i. destruct (Z.eq_dec i j) as [->|Hne]; [lra|].
    assert (1 <= Rabs (IZR i - IZR j)) as H1.
    { rewrite <- minus_IZR, <- abs_IZR. apply IZR_le. lia. }
    assert (u <= Rabs (IZR i * u - IZR j * u)) as H2.
    { rewrite <- Rmult_minus_distr_r, Rabs_mult, (Rabs_pos_eq u) by lra.
      pose proof (Rmult_le_compat_r u _ _ (Rlt_le _ _ Hu) H1). lra. }
    pose proof (Rabs_triang (IZR i * u - x) (- (IZR j * u - x))) as H3. rewrite Rabs_Ropp in H3.
    replace (IZR i * u - x + - (IZR j * u - x)) with (IZR i * u - IZR j * u) in H3 by ring. lra. }
  intros w (m&k&Hm&->). destruct (Z.le_gt_cases (X0 - Z.of_nat P + 1) k) as [Hk|Hk].
  - replace (IZR m * bpow ten k) with (IZR (m * 10 ^ (k - (X0 - Z.of_nat P + 1))) * u); [apply Hgrid|].
    rewrite mult_IZR, <- bpow_ten by lia. unfold u. rewrite Rmult_assoc, <- bpow_plus. do 2 f_equal. lia.
  - assert (IZR (10 ^ (Z.of_nat P - 1)) * u = bpow ten X0) as E.
    { rewrite <- bpow_ten by lia. unfold u. rewrite <- bpow_plus. f_equal. lia. }
    pose proof (Hgrid (10 ^ (Z.of_nat P - 1))%Z) as H1. rewrite E in H1.
    assert (Rabs (IZR m * bpow ten k) <= bpow ten X0) as H2.
    { rewrite Rabs_mult, (Rabs_pos_eq (bpow _ _)), <- abs_IZR by (left; apply bpow_ten_pos).
      apply IZR_lt in Hm. rewrite <- bpow_ten in Hm by lia.
      apply Rle_trans with (bpow ten (Z.of_nat P) * bpow ten (X0 - Z.of_nat P)).
      - apply Rmult_le_compat; [apply IZR_le; lia|left; apply bpow_ten_pos|lra|apply bpow_le; lia].
      - rewrite <- bpow_plus. apply bpow_le. lia. }
    apply Rabs_le_inv in H2. rewrite Rabs_minus_sym, (Rabs_minus_sym _ x).
    rewrite Rabs_minus_sym, (Rabs_minus_sym _ x) in H1.
    rewrite (Rabs_pos_eq (x - bpow ten X0)) in H1 by lra. rewrite (Rabs_pos_eq (x - IZR m * _)) by lra. lra.
Qed.

(** * Doubles *)
Lemma double_bounds m e : SpecFloat.bounded 53 1024 m e = true ->
  bpow ten (-400) < F2R (Float radix2 (Z.pos m) e) < bpow ten 400.
Proof.
  intros Hb. split.
  - eapply Rlt_le_trans; [|apply (BinarySingleNaN.bounded_ge_emin 53 1024 m e Hb)].
    unfold SpecFloat.emin. change (3 - 1024 - 53)%Z with (- (1074))%Z.
    change (-400)%Z with (- (400))%Z. rewrite !bpow_opp.
    apply Rinv_lt_contravar; [apply Rmult_lt_0_compat; apply bpow_gt_0|].
    rewrite <- !IZR_Zpower by lia. apply IZR_lt. vm_compute. reflexivity.
  - eapply Rlt_trans; [apply (BinarySingleNaN.bounded_lt_emax 53 1024 m e Hb)|].
    rewrite <- !IZR_Zpower by lia. apply IZR_lt. vm_compute. reflexivity.
Qed.
Lemma ratio_double m e : ratio (Z.pos m * 2 ^ Z.max 0 e) (2 ^ Z.max 0 (- e)) = F2R (Float radix2 (Z.pos m) e).
Proof.
  unfold ratio, F2R. cbn [Fnum Fexp]. rewrite mult_IZR.
  assert (forall k, (0 <= k)%Z -> IZR (2 ^ k) = bpow radix2 k) as Hp by (intros; by rewrite <- IZR_Zpower).
  rewrite !Hp by lia. unfold Rdiv. rewrite <- bpow_opp, Rmult_assoc, <- bpow_plus. do 2 f_equal. lia.
Qed.

(** The text of the absolute value of a finite double that is not zero *)
Lemma show_abs P m e : (0 < P)%nat -> SpecFloat.bounded 53 1024 m e = true ->
  let x := F2R (Float radix2 (Z.pos m) e) in
  let '(D, X) := decimal P (Z.pos m * 2 ^ Z.max 0 e) (2 ^ Z.max 0 (- e)) in
  exists a k, read_unsigned (show_digits P D X) = Some (a, k) /\ closest_decimal P x (IZR a * bpow ten k) /\
    Rabs (IZR a * bpow ten k - x) <= / 2 * bpow ten (1 - Z.of_nat P) * x.
Proof.
  intros HP Hb x. pose proof (double_bounds m e Hb) as Hx. fold x in Hx.
  pose proof (decimal_spec P (Z.pos m * 2 ^ Z.max 0 e) (2 ^ Z.max 0 (- e)) HP) as Hd.
  rewrite ratio_double in Hd. fold x in Hd.
  destruct (decimal P _ _) as [D X]. destruct Hd as (HD&X0&HX&Hx0&He).
  { apply Z.mul_pos_pos; [lia|]. apply Z.pow_pos_nonneg; lia. } { apply Z.pow_pos_nonneg; lia. }
  clearbody x.
  assert (X0 < 400)%Z by (apply (lt_bpow ten); lra). assert (-400 < X0 + 1)%Z by (apply (lt_bpow ten); lra).
  destruct (show_digits_denotes P D X HP) as (a&k&Hr&Hv).
  { split; [|apply HD]. transitivity (10 ^ (Z.of_nat P - 1))%Z; [apply Z.pow_nonneg; lia|apply HD]. } { lia. }
  exists a, k. split; [done|]. rewrite Hv. split.
  - assert (IZR D * bpow ten (X - Z.of_nat P + 1) = IZR (D * 10 ^ (X - X0)) * bpow ten (X0 - Z.of_nat P + 1)) as E.
    { rewrite mult_IZR, <- bpow_ten, Rmult_assoc, <- bpow_plus by lia. do 2 f_equal. lia. }
    rewrite E in He |- *. apply closest_intro; [done..| |done].
    rewrite <- E. exists D, (X - Z.of_nat P + 1)%Z. split; [|done].
    rewrite Z.abs_eq; [apply HD|]. transitivity (10 ^ (Z.of_nat P - 1))%Z; [apply Z.pow_nonneg; lia|apply HD].
  - eapply Rle_trans; [exact He|]. rewrite Rmult_assoc. apply Rmult_le_compat_l; [lra|].
    replace (X0 - Z.of_nat P + 1)%Z with (1 - Z.of_nat P + X0)%Z by lia. rewrite bpow_plus.
    apply Rmult_le_compat_l; [left; apply bpow_ten_pos|apply Hx0].
Qed.

Lemma read_positive s : read_unsigned s <> None -> read s = read_unsigned s.
Proof.
  destruct s as [|c s]; [done|]. intros H. destruct (ascii_dec c "-") as [->|Hc]; [by destruct H|].
  unfold read. destruct c as [[] [] [] [] [] [] [] []]; try reflexivity. by destruct Hc.
Qed.
Lemma short_opp P v : short_decimal P v -> short_decimal P (- v).
Proof. intros (m&k&Hm&->). exists (- m)%Z, k. rewrite Z.abs_opp, opp_IZR. split; [done|ring]. Qed.
Lemma closest_opp P x v : closest_decimal P x v -> closest_decimal P (- x) (- v).
Proof.
  intros [H1 H2]. split; [by apply short_opp|]. intros w Hw. specialize (H2 (- w) (short_opp _ _ Hw)).
  replace (- v - - x) with (- (v - x)) by ring. replace (w - - x) with (- (- w - x)) by ring. by rewrite !Rabs_Ropp.
Qed.

Lemma show64_finite P x : (0 < P)%nat -> finite64 x = true ->
  exists v, denotes (show64 P x) v /\ closest_decimal P (val64 x) v /\
    Rabs (v - val64 x) <= / 2 * bpow ten (1 - Z.of_nat P) * Rabs (val64 x).
Proof.
  intros HP Hf. destruct x as [s|s|s pl Hpl|s m e Hb]; try discriminate Hf.
  - exists 0. split_and!.
    + exists 0%Z, 0%Z. split; [by destruct s|]. lra.
    + split.
      * exists 0%Z, 0%Z. split; [cbn; apply Z.pow_pos_nonneg; lia|]. lra.
      * intros w _. cbn. rewrite Rminus_0_r, Rabs_R0. apply Rabs_pos.
    + cbn [B2R]. rewrite Rminus_0_r, Rabs_R0. lra.
  - pose proof (show_abs P m e HP Hb) as H. cbv zeta in H. unfold show64, B2R.
    assert (0 < F2R (Float radix2 (Z.pos m) e)) as Hpos by (by apply F2R_gt_0).
    destruct (decimal P _ _) as [D X]. destruct H as (a&k&Hr&Hc&He). destruct s.
    + exists (- (IZR a * bpow ten k)).
      change (cond_Zopp true (Z.pos m)) with (- Z.pos m)%Z. rewrite F2R_Zopp.
      split_and!.
      * exists (- a)%Z, k. split; [|rewrite opp_IZR; ring].
        change ("-" ++ show_digits P D X)%string with (String "-" (show_digits P D X)). cbn [read]. by rewrite Hr.
      * by apply closest_opp.
      * rewrite Rabs_Ropp, (Rabs_pos_eq (F2R _)) by lra.
        replace (- (IZR a * bpow ten k) - - F2R (Float radix2 (Z.pos m) e)) with (- (IZR a * bpow ten k - F2R (Float radix2 (Z.pos m) e))) by ring.
        by rewrite Rabs_Ropp.
    + exists (IZR a * bpow ten k). change (cond_Zopp false (Z.pos m)) with (Z.pos m). split_and!.
      * exists a, k. split; [|done]. change ("" ++ show_digits P D X)%string with (show_digits P D X).
        rewrite read_positive; [done|]. by rewrite Hr.
      * done.
      * by rewrite (Rabs_pos_eq (F2R _)) by lra.
Qed.
(** Anything else is printed as a text that is no numeral. *)
Lemma show64_not_finite P x : finite64 x = false -> read (show64 P x) = None.
Proof. destruct x as [s|s|s pl Hpl|s m e Hb]; try discriminate; by destruct s. Qed.

(** A number that has at most P digits is printed exactly. *)
Lemma closest_exact P x v : short_decimal P x -> closest_decimal P x v -> v = x.
Proof.
  intros Hx [_ H]. specialize (H x Hx). replace (x - x) with 0 in H by ring. rewrite Rabs_R0 in H.
  destruct (Req_dec (v - x) 0) as [E|E]; [lra|]. apply Rabs_no_R0 in E. pose proof (Rabs_pos (v - x)). lra.
Qed.
(** Two numbers with P digits are not closer than 10^-P of one of them. *)
Lemma short_gap P v w : short_decimal P v -> short_decimal P w -> v <> w -> bpow ten (- Z.of_nat P) * Rabs w <= Rabs (v - w).
Proof.
  intros (n&j&Hn&Hv) (m&k&Hm&Hw) Hne. set (p := Z.of_nat P) in *. assert (0 <= p)%Z as Hp by lia. clearbody p.
  apply IZR_lt in Hn as Hn'. apply IZR_lt in Hm as Hm'. rewrite abs_IZR, <- bpow_ten in Hn', Hm' by done.
  assert (bpow ten (- p) * bpow ten p = 1) as Hu by (rewrite <- bpow_plus, Z.add_opp_diag_l; done).
  pose proof (bpow_ten_pos (- p)) as Hq. pose proof (bpow_ten_pos p) as Hq'. pose proof (bpow_ten_pos j) as Hj. pose proof (bpow_ten_pos k) as Hk.
  assert (forall a b e, v = IZR a * bpow ten e -> w = IZR b * bpow ten e -> bpow ten e <= Rabs (v - w)) as Hd.
  { intros a b e Ha Hb. rewrite Ha, Hb, <- Rmult_minus_distr_r, Rabs_mult, (Rabs_pos_eq (bpow _ _)) by (left; apply bpow_ten_pos).
    rewrite <- (Rmult_1_l (bpow ten e)) at 1. apply Rmult_le_compat_r; [left; apply bpow_ten_pos|].
    rewrite <- minus_IZR, <- abs_IZR. apply IZR_le. assert (a <> b) by (intros ->; apply Hne; by rewrite Ha, Hb). lia. }
  assert (Rabs v = Rabs (IZR n) * bpow ten j) as Av by (rewrite Hv, Rabs_mult, (Rabs_pos_eq (bpow _ _)) by lra; done).
  assert (Rabs w = Rabs (IZR m) * bpow ten k) as Aw by (rewrite Hw, Rabs_mult, (Rabs_pos_eq (bpow _ _)) by lra; done).
  destruct (Z.le_gt_cases k j) as [H|H].
  - assert (bpow ten k <= Rabs (v - w)) as H1.
    { apply (Hd (n * 10 ^ (j - k))%Z m k); [|done]. rewrite Hv, mult_IZR, <- bpow_ten, Rmult_assoc, <- bpow_plus by lia. do 2 f_equal. lia. }
    eapply Rle_trans; [|exact H1]. rewrite Aw, <- Rmult_assoc.
    pose proof (Rmult_le_compat_l _ _ _ (Rlt_le _ _ Hq) (Rlt_le _ _ Hm')) as H2. rewrite Hu in H2.
    pose proof (Rmult_le_compat_r _ _ _ (Rlt_le _ _ Hk) H2). lra.
  - assert (bpow ten j <= Rabs (v - w)) as H1.
    { apply (Hd n (m * 10 ^ (k - j))%Z j); [done|]. rewrite Hw, mult_IZR, <- bpow_ten, Rmult_assoc, <- bpow_plus by lia. do 2 f_equal. lia. }
    destruct (Rle_lt_dec (Rabs w) (bpow ten p * bpow ten j)) as [H2|H2].
    + eapply Rle_trans; [|exact H1]. pose proof (Rmult_le_compat_l _ _ _ (Rlt_le _ _ Hq) H2) as H3.
      rewrite <- Rmult_assoc, Hu in H3. lra.
    + assert (Rabs v <= bpow ten p * bpow ten j - bpow ten j) as H3.
      { rewrite Av. assert (Rabs (IZR n) <= bpow ten p - 1) as H3.
        { rewrite <- abs_IZR, bpow_ten, <- minus_IZR by done. apply IZR_le. lia. }
        pose proof (Rmult_le_compat_r _ _ _ (Rlt_le _ _ Hj) H3). lra. }
      pose proof (Rabs_triang_inv w v) as H4. rewrite Rabs_minus_sym in H4.
      assert (bpow ten (- p) <= 1) as H5.
      { change 1 with (bpow ten 0). apply bpow_le. lia. }
      assert (0 <= (1 - bpow ten (- p)) * (Rabs w - bpow ten p * bpow ten j)) as H6 by (apply Rmult_le_pos; lra).
      assert (bpow ten (- p) * (bpow ten p * bpow ten j) = bpow ten j) as H7 by (rewrite <- Rmult_assoc, Hu; ring).
      lra.
Qed.
(** So is a double that is closer than that to a number with P digits. *)
Lemma closest_near P x v w : short_decimal P w -> 2 * Rabs (w - x) < bpow ten (- Z.of_nat P) * Rabs w ->
  closest_decimal P x v -> v = w.
Proof.
  intros Hw Hx [Hv Hc]. destruct (Req_dec v w) as [E|E]; [done|]. exfalso.
  pose proof (short_gap P v w Hv Hw E) as H1. specialize (Hc w Hw).
  pose proof (Rabs_triang (v - x) (- (w - x))) as H2. rewrite Rabs_Ropp in H2.
  replace (v - x + - (w - x)) with (v - w) in H2 by ring. lra.
Qed.
