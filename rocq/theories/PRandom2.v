(** The numbers drawn. *)
From Coq Require Import ZArith Reals Lra Lia Psatz.
From Flocq Require Import Core IEEE754.Binary IEEE754.Bits.
From Verif Require Import Base Num MCeil PCeil MDouble PDouble MContract PContract SpecRound PRound SpecReport MReport PReport PLayout1 MRandom SpecRandom PRandom.
Local Open Scope R_scope.

Lemma mul_add_id (c : bool) (x : binary64) : finite64 x = true -> 
  finite64 (mul_add c x none1 nzero) = true /\ val64 (mul_add c x none1 nzero) = val64 x.
Proof.
  intros Hx. assert (V1 : val64 (none1 : binary64) = 1) by apply (double_of_exact 1 ltac:(lia)).
  assert (F1 : finite64 (none1 : binary64) = true) by reflexivity.
  assert (V0 : val64 (nzero : binary64) = 0) by reflexivity. assert (F0 : finite64 (nzero : binary64) = true) by reflexivity.
  assert (G : generic_format radix2 fexp64 (val64 x)) by apply generic_format_B2R.
  assert (Rx : rnd64 (val64 x) = val64 x) by (apply round_generic; [apply BinarySingleNaN.valid_rnd_round_mode|exact G]).
  assert (Bx : Rabs (val64 x) < bpow radix2 1024) by apply abs_B2R_lt_emax.
  unfold mul_add. destruct c.
  - assert (E : rnd64 (val64 x * val64 (none1 : binary64) + val64 (nzero : binary64)) = val64 x) by (rewrite V1, V0, Rmult_1_r, Rplus_0_r; exact Rx).
    assert (F : finite64 (fma64 x none1 nzero) = true) by (apply fma_finite; [done..|]; by rewrite E).
    split; [done|]. destruct (fma_value _ _ _ F) as (_&_&_&->). exact E.
  - assert (E : rnd64 (val64 x * val64 (none1 : binary64)) = val64 x) by (rewrite V1, Rmult_1_r; exact Rx).
    assert (F : finite64 (nmul x none1) = true) by (apply mul_finite; [done..|]; by rewrite E).
    destruct (mul_value _ _ F) as (_&_&V). rewrite E in V.
    assert (E2 : rnd64 (val64 (nzero : binary64) + val64 (nmul x none1)) = val64 x) by (rewrite V, V0, Rplus_0_l; exact Rx).
    assert (F2 : finite64 (nadd nzero (nmul x none1)) = true) by (apply add_finite; [done..|]; by rewrite E2).
    split; [done|]. destruct (add_value _ _ F2) as (_&_&->). exact E2.
Qed.

Definition power1 : binary64 := nmul none1 (double_of rr).
Definition power2 : binary64 := nmul power1 (double_of rr).
Lemma power1_val : finite64 power1 = true /\ val64 power1 = IZR rr.
Proof.
  destruct (double_of_exact 1 ltac:(lia)) as [V1 F1]. destruct (double_of_exact rr ltac:(lia)) as [V2 F2].
  apply (mul_ints none1 (double_of rr) 1 rr); try done.
Qed.
Lemma power2_is : power2 = B754_finite 53 1024 false 9007199237963776 9 eq_refl.
Proof. apply B2FF_inj. vm_compute. reflexivity. Qed.
Lemma power2_val : val64 power2 = 4611686009837453312.
Proof. rewrite power2_is. unfold val64, B2R, F2R. cbn [Defs.Fnum Defs.Fexp cond_Zopp]. change (bpow radix2 9) with 512. lra. Qed.

Section Draw.
  Context (g : bool) (c : nat -> bool) (a : Z) (Ha : is_multiplier a).

  (** Two outputs of the engine, minus one *)
  Section Pair.
    Context (lo hi : Z) (Hlo : (0 <= lo < rr)%Z) (Hhi : (0 <= hi < rr)%Z) (Hpos : (0 < lo + hi * rr)%Z).
    Let S := IZR lo + IZR hi * IZR rr.
    Definition sum1 : binary64 := mul_add (c 1) (double_of lo) none1 nzero.
    Definition sum2 : binary64 := mul_add (c 0) (double_of hi) power1 sum1.
    Lemma S_between : between 0 63 S.
    Proof.
      unfold S. rewrite <- mult_IZR, <- plus_IZR. split; [apply (IZR_le 1); lia|]. change (bpow radix2 63) with (IZR (2 ^ 63)). apply IZR_le. nia.
    Qed.
    Lemma S_mid : mid S.
    Proof. apply (between_mid 0 63); [lia|lia|exact S_between]. Qed.
    Lemma sum1_val : finite64 sum1 = true /\ val64 sum1 = IZR lo.
    Proof. destruct (double_of_exact lo ltac:(lia)) as [V F]. destruct (mul_add_id (c 1) (double_of lo) F) as [H1 H2]. split; [exact H1|]. by rewrite <- V. Qed.
    Lemma sum2_near : near 2 sum2 S.
    Proof.
      destruct sum1_val as [F1 V1]. destruct power1_val as [Fp Vp]. destruct (double_of_exact hi ltac:(lia)) as [Vh Fh].
      change (B2R 53 1024 (double_of hi)) with (val64 (double_of hi)) in Vh.
      assert (Hlo0 : 0 <= IZR lo) by (apply IZR_le; lia). assert (Hhi0 : 0 <= IZR hi) by (apply IZR_le; lia).
      pose proof S_mid as HS. pose proof uro_pos as Hu. pose proof uro_small as Hu'.
      unfold sum2, mul_add. destruct (c 0).
      - assert (E : val64 (double_of hi) * val64 power1 + val64 sum1 = S) by (rewrite Vh, Vp, V1; unfold S; ring).
        destruct (round_near 0 S S ltac:(lia) HS ltac:(cbn; lra)) as (H1&H2&_).
        assert (F : finite64 (fma64 (double_of hi) power1 sum1) = true) by (apply fma_finite; [done..|]; by rewrite E).
        apply (near_le 1); [by apply mid_pos|lia|]. split; [done|]. destruct (fma_value _ _ _ F) as (_&_&_&->). rewrite E. exact H1.
      - assert (P : finite64 (nmul (double_of hi) power1) = true /\ IZR hi * IZR rr * v 1 <= val64 (nmul (double_of hi) power1) <= IZR hi * IZR rr * w 1).
        { destruct (Z.eq_dec hi 0) as [->|Hne].
          - destruct (mul_ints (double_of 0) power1 0 rr) as [H1 H2]; try done. split; [done|]. change (0 * rr)%Z with 0%Z in H2. rewrite H2, !Rmult_0_l. lra.
          - assert (Hh : 0 < IZR hi) by (apply IZR_lt; lia).
            pose proof (near_mul 0 0 (double_of hi) power1 (IZR hi) (IZR rr) ltac:(lia) Hh ltac:(lra)) as Hn.
            destruct Hn as [H1 H2]; [| |split; [exact Fp|rewrite Vp, !pow_O, !Rmult_1_r; lra]|by split].
            + apply (between_mid 0 63); [lia|lia|]. rewrite <- mult_IZR. split; [apply (IZR_le 1); lia|]. change (bpow radix2 63) with (IZR (2 ^ 63)). apply IZR_le. nia.
            + apply near_int. lia. }
        destruct P as [F HP].
        assert (Hsum : S * v 1 <= val64 sum1 + val64 (nmul (double_of hi) power1) <= S * w 1).
        { rewrite V1. unfold S. cbn [Rpow_def.pow] in *. nra. }
        destruct (round_near 1 _ S ltac:(lia) HS Hsum) as (H1&H2&_).
        assert (F2 : finite64 (nadd sum1 (nmul (double_of hi) power1)) = true) by (apply add_finite; done).
        split; [done|]. destruct (add_value _ _ F2) as (_&_&->). exact H1.
    Qed.
    Definition ratio : binary64 := div64 sum2 power2.
    Lemma ratio_near : near 3 ratio (S / 4611686009837453312).
    Proof.
      rewrite <- power2_val. apply near_div_val; [lia|rewrite power2_val; lra| |exact sum2_near].
      rewrite power2_val. apply (between_mid (0 - 63) (63 - 61)); [lia|lia|]. apply between_div; [exact S_between|].
      split; [change (bpow radix2 61) with 2305843009213693952; lra|change (bpow radix2 63) with 9223372036854775808; lra].
    Qed.
    Lemma ratio_ok : finite64 ratio = true /\ Rabs (val64 ratio - S / (IZR rr * IZR rr)) <= 4 * uro * (S / (IZR rr * IZR rr)).
    Proof.
      destruct ratio_near as [F H]. split; [done|].
      set (e := S / (IZR rr * IZR rr)). assert (He : 0 < e).
      { unfold e. pose proof (between_pos _ _ _ S_between). apply Rdiv_lt_0_compat; lra. }
      replace (S / 4611686009837453312) with (e * (4611686009837453316 / 4611686009837453312)) in H.
      2:{ unfold e. field. }
      assert (Hq : 1 <= 4611686009837453316 / 4611686009837453312 <= 1 + / 1000000000000000000) by lra.
      set (q := 4611686009837453316 / 4611686009837453312) in *.
      pose proof uro_pos as Hu. assert (Hu2 : / 10000000000000000 <= uro <= / 9000000000000000).
      { unfold uro. change (bpow radix2 (-53)) with (/ 9007199254740992). lra. }
      assert (Hsq : 0 <= uro * uro <= uro * / 9000000000000000) by nra.
      assert (HV0 : 1 - 3 * uro <= v 3) by (cbn [Rpow_def.pow]; nra).
      assert (HW0 : 0 <= w 3 <= 1 + 7 / 2 * uro) by (split; [pose proof (w_ge 3); lra|cbn [Rpow_def.pow]; nra]).
      assert (HV : 1 - 4 * uro <= q * v 3) by nra.
      assert (HW : q * w 3 <= 1 + 4 * uro).
      { apply Rle_trans with ((1 + / 1000000000000000000) * (1 + 7 / 2 * uro)); [apply Rmult_le_compat; lra|]. lra. }
      rewrite !Rmult_assoc in H. apply Rabs_le. nra.
    Qed.
  End Pair.

  Lemma step_residue n : engine_step a (power_residue a n) = power_residue a (S n).
  Proof.
    unfold engine_step, power_residue. change modulus with (2 ^ 31 - 1)%Z. rewrite Zmult_mod_idemp_r, Nat2Z.inj_succ, Z.pow_succ_r by lia. done.
  Qed.
  Lemma after_residue k : engine_after g c a k = power_residue a (2 * k).
  Proof.
    induction k as [|k IH]; [reflexivity|]. cbn [engine_after]. rewrite IH. unfold uniform, canonical. change calls with 2%nat.
    cbn [canonical_loop fst]. rewrite !step_residue. f_equal. lia.
  Qed.
  Definition lo (k : nat) : Z := power_residue a (2 * k + 1) - 1.
  Definition hi (k : nat) : Z := power_residue a (2 * k + 2) - 1.
  Lemma lo_range k : (0 <= lo k < rr)%Z.
  Proof. unfold lo. pose proof (residue_range a Ha (2 * k + 1)). lia. Qed.
  Lemma hi_range k : (0 <= hi k < rr)%Z.
  Proof. unfold hi. pose proof (residue_range a Ha (2 * k + 2)). lia. Qed.
  Lemma pair_pos k : (0 < lo k + hi k * rr)%Z.
  Proof. pose proof (pair_low a Ha k) as H. pose proof (inv_range a Ha). unfold pair in H. unfold lo, hi. lia. Qed.
  Lemma draw_is k : draw g c a k = mul_add (c 2) (let ret := ratio (lo k) (hi k) in
      if g then match b64_compare ret none1 with Some Lt => ret | _ => below_one end else ret) none1 nzero.
  Proof.
    unfold draw. rewrite after_residue. unfold uniform, canonical. change calls with 2%nat.
    cbn [canonical_loop snd]. rewrite !step_residue. replace (S (S (2 * k))) with (2 * k + 2)%nat by lia. replace (S (2 * k)) with (2 * k + 1)%nat by lia.
    reflexivity.
  Qed.
  Lemma fraction_is k : fraction a k = (IZR (lo k) + IZR (hi k) * IZR rr) / (IZR rr * IZR rr).
  Proof. reflexivity. Qed.
  Lemma fraction_pair k : fraction a k = IZR (pair a k) / 4611686009837453316.
  Proof. rewrite fraction_is, <- mult_IZR, <- plus_IZR, <- mult_IZR. reflexivity. Qed.
  Lemma fraction_range k : 305 / 10 ^ 12 <= fraction a k <= 1 - 305 / 10 ^ 12.
  Proof.
    rewrite fraction_pair. pose proof (pair_low a Ha k) as H1. pose proof (pair_high a Ha k) as H2. pose proof (inv_range a Ha) as H3.
    assert (L : (1407676999 <= pair a k)%Z) by lia. assert (U : (pair a k <= 4611686009837453316 - 1407677000)%Z) by lia.
    apply IZR_le in L. apply IZR_le in U. rewrite minus_IZR in U. lra.
  Qed.
  Lemma fraction_apart i j : ~ same_phase i j -> 305 / 10 ^ 12 <= Rabs (fraction a i - fraction a j).
  Proof.
    intros Hne. pose proof (pair_apart a Ha i j Hne) as H. pose proof (inv_range a Ha) as H3.
    assert (L : (1407676999 <= Z.abs (pair a i - pair a j))%Z) by lia. apply IZR_le in L. rewrite abs_IZR, minus_IZR in L.
    rewrite !fraction_pair. replace (_ / _ - _ / _) with ((IZR (pair a i) - IZR (pair a j)) * / 4611686009837453316) by lra.
    rewrite Rabs_mult, (Rabs_pos_eq (/ _)) by lra. lra.
  Qed.
  Lemma ratio_small k : finite64 (ratio (lo k) (hi k)) = true /\ Rabs (val64 (ratio (lo k) (hi k)) - fraction a k) <= 4 * uro * fraction a k.
  Proof. rewrite fraction_is. apply ratio_ok; [apply lo_range|apply hi_range|apply pair_pos]. Qed.
  Lemma uro_bound : 0 < uro <= / 9000000000000000.
  Proof. pose proof uro_pos. split; [done|]. unfold uro. change (bpow radix2 (-53)) with (/ 9007199254740992). lra. Qed.
  Lemma ratio_range k : 3 / 10 ^ 10 < val64 (ratio (lo k) (hi k)) < 1 - 3 / 10 ^ 10.
  Proof.
    destruct (ratio_small k) as [_ H]. pose proof (fraction_range k) as F. pose proof uro_bound as U.
    assert (B : 4 * uro * fraction a k <= / 1000000000000) by nra. apply Rabs_le_inv in H. lra.
  Qed.
  Lemma draw_unguarded k : draw g c a k = mul_add (c 2) (ratio (lo k) (hi k)) none1 nzero.
  Proof.
    rewrite draw_is. cbv zeta. destruct g; [|done]. destruct (ratio_small k) as [F _]. pose proof (ratio_range k) as B.
    rewrite compare64; [|done|done]. cbn [none1 B64_ops]. rewrite (proj1 (double_of_exact 1 ltac:(lia))).
    rewrite Rcompare_Lt by lra. done.
  Qed.
  Lemma draw_val k : finite64 (draw g c a k) = true /\ val64 (draw g c a k) = val64 (ratio (lo k) (hi k)).
  Proof. rewrite draw_unguarded. apply mul_add_id. apply ratio_small. Qed.
  Lemma draw_close k : Rabs (val64 (draw g c a k) - fraction a k) <= 4 * uro * fraction a k.
  Proof. destruct (draw_val k) as [_ ->]. apply ratio_small. Qed.
  Lemma draw_range k : 3 / 10 ^ 10 < val64 (draw g c a k) < 1 - 3 / 10 ^ 10.
  Proof. destruct (draw_val k) as [_ ->]. apply ratio_range. Qed.
  Lemma draw_apart i j : ~ same_phase i j -> 3 / 10 ^ 10 < Rabs (val64 (draw g c a i) - val64 (draw g c a j)).
  Proof.
    intros Hne. pose proof (fraction_apart i j Hne) as A. pose proof (draw_close i) as Hi. pose proof (draw_close j) as Hj.
    pose proof (fraction_range i) as Fi. pose proof (fraction_range j) as Fj. pose proof uro_bound as U.
    assert (Bi : 4 * uro * fraction a i <= / 1000000000000) by nra. assert (Bj : 4 * uro * fraction a j <= / 1000000000000) by nra.
    revert A Hi Hj. unfold Rabs. repeat destruct (Rcase_abs _); lra.
  Qed.
  Lemma draw_repeats i j : same_phase i j -> draw g c a i = draw g c a j.
  Proof.
    intros Hs. destruct (phase_residues a Ha i j Hs) as [E1 E2]. rewrite !draw_unguarded. unfold lo, hi. by rewrite E1, E2.
  Qed.
End Draw.
Lemma guard_useless c a k : is_multiplier a -> draw true c a k = draw false c a k.
Proof. intros Ha. by rewrite !draw_unguarded. Qed.
