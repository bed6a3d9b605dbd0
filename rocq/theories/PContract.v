(** Rounding errors when a*b+c is contracted at will. *)
From Coq Require Import ZArith Reals Psatz.
From Flocq Require Import Core Relative Plus_error IEEE754.Binary IEEE754.Bits.
From Verif Require Import Base Num Spec SpecTiled MCeil PCeil MDouble PDouble SpecContract MContract MApp SpecApp SpecRound PRound PRound2.
Local Open Scope R_scope.

#[local] Instance prec53c : Prec_gt_0 53 := eq_refl.
#[local] Instance fexp64_validc : Valid_exp fexp64.
Proof. apply (FLT_exp_valid (-1074) 53). Qed.

(** ** One multiply-add *)
Lemma fma_value (x y z : binary64) : finite64 (fma64 x y z) = true ->
  finite64 x = true /\ finite64 y = true /\ finite64 z = true /\ val64 (fma64 x y z) = rnd64 (val64 x * val64 y + val64 z).
Proof.
  intros Hf. assert (Hxyz : finite64 x = true /\ finite64 y = true /\ finite64 z = true).
  { revert Hf. destruct x as [sa|sa|sa pa Ha|sa ma ea Ha], y as [sb|sb|sb pb Hb|sb mb eb Hb], z as [sc|sc|sc pc Hc|sc mc ec Hc];
      try (by intros _); cbn; try discriminate; try (destruct sa, sb, sc; discriminate). }
  destruct Hxyz as (Hx&Hy&Hz). do 3 (split; [done|]).
  pose proof (Bfma_correct 53 1024 eq_refl eq_refl ternop_nan_pl64 rne x y z Hx Hy Hz) as Hm. cbv zeta in Hm.
  destruct (Rlt_bool _ _) eqn:Eb; [by destruct Hm|]. exfalso. revert Hm Hf.
  change (Bfma 53 1024 _ _ ternop_nan_pl64 rne x y z) with (fma64 x y z). by destruct (fma64 x y z).
Qed.
Lemma fma_finite (x y z : binary64) : finite64 x = true -> finite64 y = true -> finite64 z = true ->
  Rabs (rnd64 (val64 x * val64 y + val64 z)) < bpow radix2 1024 -> finite64 (fma64 x y z) = true.
Proof.
  intros Hx Hy Hz Hb. pose proof (Bfma_correct 53 1024 eq_refl eq_refl ternop_nan_pl64 rne x y z Hx Hy Hz) as Hm. cbv zeta in Hm.
  rewrite Rlt_bool_true in Hm by done. by destruct Hm as (_&Hf&_).
Qed.

(** s + x*y, contracted or not *)
Definition muladd (s x y s' : binary64) : Prop := s' = nadd s (nmul x y) \/ s' = fma64 x y s.

Lemma muladd_err s x y s' : muladd s x y s' -> finite64 s' = true ->
  finite64 s = true /\ finite64 x = true /\ finite64 y = true /\
  Rabs (val64 s' - (val64 s + val64 x * val64 y)) <=
    uro * Rabs (val64 s + val64 x * val64 y) + (1 + uro) * (uro * Rabs (val64 x * val64 y) + tiny).
Proof.
  pose proof uro_pos as Hu. pose proof tiny_pos as Ht.
  intros [->| ->] Hf.
  - destruct (add_value _ _ Hf) as (Hs&Hp&->). destruct (mul_value _ _ Hp) as (Hx&Hy&Hv). do 3 (split; [done|]).
    pose proof (rnd_plus_err s (nmul x y)) as H1. rewrite Hv in *. set (p := val64 x * val64 y) in *.
    pose proof (rnd_mult_err p) as H2. set (r := rnd64 p) in *. set (a := val64 s) in *.
    replace (rnd64 (a + r) - (a + p)) with ((rnd64 (a + r) - (a + r)) + (r - p)) by lra.
    eapply Rle_trans; [apply Rabs_triang|].
    assert (H3 : Rabs (a + r) <= Rabs (a + p) + Rabs (r - p)).
    { replace (a + r) with ((a + p) + (r - p)) by lra. apply Rabs_triang. }
    assert (uro * Rabs (a + r) <= uro * (Rabs (a + p) + (uro * Rabs p + tiny))) by (apply Rmult_le_compat_l; lra). lra.
  - destruct (fma_value _ _ _ Hf) as (Hx&Hy&Hs&->). do 3 (split; [done|]). rewrite Rplus_comm.
    pose proof (rnd_mult_err (val64 s + val64 x * val64 y)) as H1. pose proof (Rabs_pos (val64 x * val64 y)).
    eapply Rle_trans; [exact H1|]. nra.
Qed.
Lemma muladd_zero s x y s' : muladd s x y s' -> finite64 s' = true -> val64 x * val64 y = 0 -> val64 s' = val64 s.
Proof.
  intros [->| ->] Hf H0.
  - destruct (add_value _ _ Hf) as (Hs&Hp&->). destruct (mul_value _ _ Hp) as (Hx&Hy&Hv). rewrite Hv, H0.
    unfold BinarySingleNaN.round_mode at 2. rewrite round_0 by apply valid_rnd_N. rewrite Rplus_0_r. apply rnd64_id, val64_format.
  - destruct (fma_value _ _ _ Hf) as (Hx&Hy&Hs&->). rewrite H0, Rplus_0_l. apply rnd64_id, val64_format.
Qed.
Lemma rnd_abs_le (r : R) b : Rabs r <= b -> Rabs (rnd64 r) <= rnd64 b.
Proof. intros Hr. rewrite <- rnd64_abs. by apply rnd64_le. Qed.
Lemma rnd_succ (s p : binary64) : 0 <= val64 p -> rnd64 (Rabs (val64 s) + val64 p) <= (1 + uro) * (Rabs (val64 s) + val64 p).
Proof.
  intros Hp. pose proof (rnd_plus_err (b64_abs s) p) as H1. unfold b64_abs in H1. rewrite B2R_Babs in H1.
  pose proof (Rabs_pos (val64 s)). rewrite (Rabs_pos_eq (Rabs (val64 s) + val64 p)) in H1 by lra.
  apply Rabs_le_inv in H1. lra.
Qed.
Lemma muladd_bounded s x y s' B (p : binary64) : muladd s x y s' -> finite64 s = true -> finite64 x = true -> finite64 y = true ->
  Rabs (val64 x * val64 y) <= val64 p -> Rabs (val64 s) <= B -> (1 + uro) * (B + val64 p) <= 4194304 ->
  finite64 s' = true /\ Rabs (val64 s') <= (1 + uro) * (B + val64 p).
Proof.
  intros Hm Hs Hx Hy Hp HB Hbig. pose proof uro_pos as Hu.
  assert (Hp0 : 0 <= val64 p) by (pose proof (Rabs_pos (val64 x * val64 y)); lra).
  assert (HB0 : 0 <= B) by (pose proof (Rabs_pos (val64 s)); lra).
  assert (Hup : rnd64 (Rabs (val64 s) + val64 p) <= (1 + uro) * (B + val64 p)).
  { eapply Rle_trans; [by apply rnd_succ|]. apply Rmult_le_compat_l; lra. }
  assert (HpB : val64 p <= 4194304) by nra.
  pose proof big_bpow as Hbb. destruct Hm as [->| ->].
  - assert (Hr : Rabs (rnd64 (val64 x * val64 y)) <= val64 p).
    { rewrite <- (rnd64_id (val64 p)) by apply val64_format. by apply rnd_abs_le. }
    assert (Hpf : finite64 (nmul x y) = true) by (apply mul_finite; [done..|]; lra).
    destruct (mul_value _ _ Hpf) as (_&_&Hv).
    assert (Hb : Rabs (rnd64 (val64 s + val64 (nmul x y))) <= rnd64 (Rabs (val64 s) + val64 p)).
    { apply rnd_abs_le. eapply Rle_trans; [apply Rabs_triang|]. rewrite Hv. lra. }
    assert (Hf : finite64 (nadd s (nmul x y)) = true) by (apply add_finite; [done..|]; lra).
    split; [done|]. destruct (add_value _ _ Hf) as (_&_&->). lra.
  - assert (Hb : Rabs (rnd64 (val64 x * val64 y + val64 s)) <= rnd64 (Rabs (val64 s) + val64 p)).
    { apply rnd_abs_le. eapply Rle_trans; [apply Rabs_triang|]. lra. }
    assert (Hf : finite64 (fma64 x y s) = true) by (apply fma_finite; [done..|]; lra).
    split; [done|]. destruct (fma_value _ _ _ Hf) as (_&_&_&->). lra.
Qed.

(** ** Sums of products *)
Inductive msum (x y : nat -> binary64) : list nat -> binary64 -> Prop :=
| msum_nil : msum x y [] nzero
| msum_snoc ks k s s' : msum x y ks s -> muladd s (x k) (y k) s' -> msum x y (ks ++ [k]) s'.
Inductive csum (c : nat -> binary64 -> Prop) : list nat -> binary64 -> Prop :=
| csum_nil : csum c [] nzero
| csum_snoc qs q s t : csum c qs s -> c q t -> csum c (qs ++ [q]) (nadd s t).

Section Products.
  Context (x y : nat -> binary64) (N : nat).
  Hypothesis Hdead : forall k, (N <= k)%nat -> val64 (x k) * val64 (y k) = 0.
  Let g (k : nat) : R := val64 (x k) * val64 (y k).
  Let c (k : nat) : R := if decide (k < N)%nat then 1 else 0.
  Definition live (ks : list nat) : nat := length (filter (fun k => (k < N)%nat) ks).
  Lemma live_snoc ks k : live (ks ++ [k]) = (live ks + if decide (k < N)%nat then 1 else 0)%nat.
  Proof. unfold live. rewrite filter_app, app_length. f_equal. rewrite filter_cons. by destruct (decide (k < N)%nat). Qed.
  Lemma live_len ks : (live ks <= length ks)%nat.
  Proof. apply filter_length. Qed.
  Lemma live_N ks : NoDup ks -> (live ks <= N)%nat.
  Proof.
    intros Hnd. unfold live. transitivity (length (seq 0 N)); [|by rewrite seq_length]. apply submseteq_length, NoDup_submseteq; [by apply NoDup_filter|].
    intros k [Hk1 Hk2]%elem_of_list_filter. apply elem_of_seq. cbv beta in Hk1. lia.
  Qed.
  Lemma msum_err ks v : msum x y ks v -> finite64 v = true ->
    Rabs (val64 v - rsum g ks) <= (w (1 + live ks) - 1) * rsum (fun k => Rabs (g k)) ks + rsum c ks * tiny * w (1 + live ks).
  Proof.
    induction 1 as [|ks k s s' Hs IH Hm]; intros Hf.
    - cbn [rsum foldr]. change (val64 nzero) with 0. rewrite Rminus_0_r, Rabs_R0, Rmult_0_r, !Rmult_0_l. lra.
    - destruct (muladd_err _ _ _ _ Hm Hf) as (Hsf&Hx&Hy&He). specialize (IH Hsf).
      rewrite !rsum_app, live_snoc. cbn [rsum foldr]. rewrite !Rplus_0_r.
      fold (g k) in He. set (S := rsum g ks) in *. set (M := rsum (fun k => Rabs (g k)) ks) in *. set (Cc := rsum c ks) in *.
      assert (HSM : Rabs S <= M) by apply rsum_abs. assert (HM : 0 <= M) by (pose proof (Rabs_pos S); lra).
      assert (HC : 0 <= Cc) by (apply rsum_nonneg; intros k' _; unfold c; destruct (decide _); lra).
      unfold c at 1. destruct (decide (k < N)%nat) as [Hk|Hk].
      + rewrite Nat.add_1_r.
        replace (1 + Datatypes.S (live ks))%nat with (Datatypes.S (1 + live ks)) by lia. cbn [Rpow_def.pow].
        change ((1 + uro) * (1 + uro) ^ live ks) with (w (1 + live ks)).
        assert (HW1 : 1 + uro <= w (1 + live ks)).
        { change (w (1 + live ks)) with ((1 + uro) * w (live ks)). pose proof (w_ge (live ks)) as HW0. pose proof uro_pos as Hu0.
          rewrite <- (Rmult_1_r (1 + uro)) at 1. apply Rmult_le_compat_l; lra. }
        set (W := w (1 + live ks)) in *. pose proof uro_pos as Hu. pose proof tiny_pos as Ht.
        set (s0 := val64 s) in *. set (p := g k) in *. pose proof (Rabs_pos p) as Hp.
        assert (H1 : Rabs (s0 + p) <= Rabs (s0 - S) + M + Rabs p).
        { replace (s0 + p) with ((s0 - S) + S + p) by lra. pose proof (Rabs_triang (s0 - S + S) p). pose proof (Rabs_triang (s0 - S) S). lra. }
        replace (val64 s' - (S + p)) with ((val64 s' - (s0 + p)) + (s0 - S)) by lra.
        eapply Rle_trans; [apply Rabs_triang|].
        set (E := Rabs (s0 - S)) in *.
        assert (H2 : uro * Rabs (s0 + p) <= uro * (E + M + Rabs p)) by (apply Rmult_le_compat_l; lra).
        apply Rle_trans with ((1 + uro) * E + uro * M + Rabs p * (uro + (1 + uro) * uro) + (1 + uro) * tiny); [lra|].
        assert (H3 : (1 + uro) * E <= (1 + uro) * ((W - 1) * M + Cc * tiny * W)) by (apply Rmult_le_compat_l; lra).
        assert (H4 : Rabs p * (uro + (1 + uro) * uro) <= Rabs p * ((1 + uro) * W - 1)) 
          by (apply Rmult_le_compat_l; [lra|]; assert ((1 + uro) * (1 + uro) <= (1 + uro) * W) by (apply Rmult_le_compat_l; lra); lra).
        assert (H5 : (1 + uro) * tiny <= tiny * ((1 + uro) * W)).
        { rewrite Rmult_comm. apply Rmult_le_compat_l; [lra|]. rewrite <- (Rmult_1_r (1 + uro)) at 1. apply Rmult_le_compat_l; lra. }
        lra.
      + rewrite Nat.add_0_r. assert (Hp : g k = 0) by (unfold g; apply Hdead; lia). rewrite Hp, Rabs_R0, !Rplus_0_r.
        rewrite (muladd_zero _ _ _ _ Hm Hf Hp). exact IH.
  Qed.
  Hypothesis Hx : forall k, finite64 (x k) = true.
  Hypothesis Hy : forall k, finite64 (y k) = true.
  Variable p : binary64.
  Hypothesis Hp : forall k, Rabs (val64 (x k) * val64 (y k)) <= val64 p.
  Lemma muladd_dead_finite s x' y' s' : muladd s x' y' s' -> finite64 s = true -> finite64 x' = true -> finite64 y' = true ->
    val64 x' * val64 y' = 0 -> finite64 s' = true.
  Proof.
    intros [->| ->] Hs Hx' Hy' H0.
    - assert (Hr : rnd64 (val64 x' * val64 y') = 0).
      { rewrite H0. unfold BinarySingleNaN.round_mode. apply round_0. apply valid_rnd_N. }
      assert (Hpf : finite64 (nmul x' y') = true) by (apply mul_finite; [done..|]; rewrite Hr, Rabs_R0; apply bpow_gt_0).
      destruct (mul_value _ _ Hpf) as (_&_&Hv). apply add_finite; [done..|]. rewrite Hv, Hr, Rplus_0_r, rnd64_id by apply val64_format. apply val64_lt.
    - apply fma_finite; [done..|]. rewrite H0, Rplus_0_l, rnd64_id by apply val64_format. apply val64_lt.
  Qed.
  Lemma msum_bounded ks v : msum x y ks v -> w (live ks) <= 2 -> rsum c ks * val64 p <= 1048576 ->
    finite64 v = true /\ Rabs (val64 v) <= w (live ks) * (rsum c ks * val64 p).
  Proof.
    induction 1 as [|ks k s s' Hs IH Hm]; intros Hw Hc.
    - split; [done|]. change (val64 nzero) with 0. cbn. rewrite Rabs_R0. lra.
    - assert (HP : 0 <= val64 p) by (pose proof (Hp 0%nat); pose proof (Rabs_pos (val64 (x 0%nat) * val64 (y 0%nat))); lra).
      assert (HC : 0 <= rsum c ks).
      { clear. apply rsum_nonneg; intros k' _; unfold c; destruct (decide _); lra. }
      rewrite live_snoc in *. rewrite rsum_app in *. cbn [rsum foldr] in *. rewrite Rplus_0_r in *.
      unfold c at 2 in Hc. unfold c at 2. destruct (decide (k < N)%nat) as [Hk|Hk].
      + rewrite Nat.add_1_r in *. change (w (S (live ks))) with ((1 + uro) * w (live ks)) in *.
        pose proof uro_pos as Hu. pose proof (w_ge (live ks)) as HW. set (W := w (live ks)) in *. clearbody W.
        assert (HW2 : W <= 2). { apply Rle_trans with ((1 + uro) * W); [|done]. rewrite <- (Rmult_1_l W) at 1. apply Rmult_le_compat_r; lra. }
        set (C0 := rsum c ks) in *. assert (HCe : (C0 + 1) * val64 p = C0 * val64 p + val64 p) by ring. rewrite HCe in *. set (CP := C0 * val64 p) in *.
        assert (HCP : 0 <= CP) by (apply Rmult_le_pos; assumption). clearbody CP.
        destruct IH as [IHf IHb]; [done|lra|].
        assert (HB : (1 + uro) * (W * CP + val64 p) <= (1 + uro) * W * (CP + val64 p)).
        { rewrite Rmult_assoc. apply Rmult_le_compat_l; [lra|]. rewrite Rmult_plus_distr_l. apply Rplus_le_compat_l.
          rewrite <- (Rmult_1_l (val64 p)) at 1. apply Rmult_le_compat_r; lra. }
        destruct (muladd_bounded _ _ _ _ (W * CP) p Hm IHf (Hx k) (Hy k) (Hp k) IHb) as [H1 H2].
        { assert ((1 + uro) * W * (CP + val64 p) <= 2 * (CP + val64 p)) by (apply Rmult_le_compat_r; lra). lra. }
        split; [done|]. eapply Rle_trans; [exact H2|exact HB].
      + rewrite Nat.add_0_r, Rplus_0_r in *. destruct IH as [IHf IHb]; [done|done|].
        pose proof (muladd_dead_finite _ _ _ _ Hm IHf (Hx k) (Hy k) (Hdead k ltac:(lia))) as Hf.
        split; [done|]. rewrite (muladd_zero _ _ _ _ Hm Hf) by (apply Hdead; lia). done.
  Qed.
End Products.
