(** Rounding errors of the summation orders. *)
From Coq Require Import ZArith Reals Psatz.
From Flocq Require Import Core Relative Plus_error IEEE754.Binary IEEE754.Bits.
From Verif Require Import Base Num Spec SpecTiled MCeil PCeil MDouble PDouble MApp SpecApp SpecRound.
Local Open Scope R_scope.

#[local] Instance prec53'' : Prec_gt_0 53 := eq_refl.
#[local] Instance fexp64_valid'' : Valid_exp fexp64.
Proof. apply (FLT_exp_valid (-1074) 53). Qed.

(** ** Real sums *)
Lemma rsum_app f l l' : rsum f (l ++ l') = rsum f l + rsum f l'.
Proof. unfold rsum. induction l as [|k l IH]; cbn; [lra|]. rewrite IH. lra. Qed.
Lemma rsum_ext f g l : (forall k, k ∈ l -> f k = g k) -> rsum f l = rsum g l.
Proof. induction l as [|k l IH]; intros Hf; cbn; [done|]. rewrite Hf by set_solver. f_equal. apply IH. set_solver. Qed.
Lemma rsum_le f g l : (forall k, k ∈ l -> f k <= g k) -> rsum f l <= rsum g l.
Proof.
  induction l as [|k l IH]; intros Hf; cbn; [lra|]. pose proof (Hf k ltac:(set_solver)).
  assert (rsum f l <= rsum g l) by (apply IH; set_solver). unfold rsum in *. lra.
Qed.
Lemma rsum_plus f g l : rsum (fun k => f k + g k) l = rsum f l + rsum g l.
Proof. induction l as [|k l IH]; cbn; [lra|]. unfold rsum in *. rewrite IH. lra. Qed.
Lemma rsum_mult a f l : rsum (fun k => a * f k) l = a * rsum f l.
Proof. induction l as [|k l IH]; cbn; [lra|]. unfold rsum in *. rewrite IH. lra. Qed.
Lemma rsum_zero f l : (forall k, k ∈ l -> f k = 0) -> rsum f l = 0.
Proof. induction l as [|k l IH]; intros Hf; cbn; [done|]. rewrite Hf by set_solver. change (0 + rsum f l = 0). rewrite IH by set_solver. lra. Qed.
Lemma rsum_abs f l : Rabs (rsum f l) <= rsum (fun k => Rabs (f k)) l.
Proof.
  induction l as [|k l IH]; cbn; [rewrite Rabs_R0; lra|]. eapply Rle_trans; [apply Rabs_triang|]. unfold rsum in *. lra.
Qed.
Lemma rsum_nonneg f l : (forall k, k ∈ l -> 0 <= f k) -> 0 <= rsum f l.
Proof. intros Hf. rewrite <- (rsum_zero (fun _ => 0) l) by done. by apply rsum_le. Qed.
Lemma rsum_bind f (g : nat -> list nat) l : rsum f (l ≫= g) = rsum (fun q => rsum f (g q)) l.
Proof. induction l as [|q l IH]; [done|]. change (rsum f (g q ++ (l ≫= g)) = rsum f (g q) + rsum (fun q => rsum f (g q)) l). by rewrite rsum_app, IH. Qed.
Lemma rsum_ones l : rsum (fun _ => 1) l = INR (length l).
Proof. induction l as [|k l IH]; [done|]. cbn [length]. rewrite S_INR. cbn. unfold rsum in IH. rewrite IH. lra. Qed.
Lemma chunk_seq b Q : (seq 0 Q ≫= fun q => seq (q * b) b) = seq 0 (Q * b).
Proof.
  induction Q as [|Q IH]; [done|]. rewrite seq_S, bind_app, IH. cbn. rewrite app_nil_r.
  rewrite <- seq_app. f_equal. lia.
Qed.
Lemma rsum_chunks f b Q : rsum (fun q => rsum f (seq (q * b) b)) (seq 0 Q) = rsum f (seq 0 (Q * b)).
Proof. by rewrite <- rsum_bind, chunk_seq. Qed.
Lemma rsum_pad f N M : (N <= M)%nat -> (forall k, (N <= k < M)%nat -> f k = 0) -> rsum f (seq 0 M) = rsum f (seq 0 N).
Proof.
  intros HM Hf. replace M with (N + (M - N))%nat by lia. rewrite seq_app, rsum_app.
  rewrite (rsum_zero _ (seq (0 + N) _)); [lra|]. intros k Hk%elem_of_seq. apply Hf. lia.
Qed.

(** ** Powers of 1 + u *)
Notation w h := ((1 + uro) ^ h).
Lemma uro_pos : 0 < uro.
Proof. apply bpow_gt_0. Qed.
Lemma tiny_pos : 0 < tiny.
Proof. apply bpow_gt_0. Qed.
Lemma uro_small : uro <= / 1000000.
Proof. unfold uro. rewrite (bp 53). change (2 ^ 53)%Z with 9007199254740992%Z. lra. Qed.
Lemma w_ge h : 1 <= w h.
Proof. apply pow_R1_Rle. pose proof uro_pos. lra. Qed.
Lemma w_mono h h' : (h <= h')%nat -> w h <= w h'.
Proof. intros Hh. apply Rle_pow; [pose proof uro_pos; lra|done]. Qed.
Lemma w_upper n : INR n * uro <= 1 -> w n <= 1 + INR n * uro + INR n * uro * (INR n * uro).
Proof.
  pose proof uro_pos as Hu. induction n as [|n IH]; intros Hn; [cbn; lra|]. rewrite S_INR in *. cbn [Rpow_def.pow].
  pose proof (pos_INR n) as Hp. assert (Hn' : INR n * uro <= 1) by nra. specialize (IH Hn').
  apply Rle_trans with ((1 + uro) * (1 + INR n * uro + INR n * uro * (INR n * uro))); [apply Rmult_le_compat_l; lra|].
  set (x := INR n * uro) in *. assert (0 <= x) by (unfold x; nra).
  replace ((INR n + 1) * uro) with (x + uro) by (unfold x; lra).
  assert (0 <= uro * (x * (1 - x) + uro)) by (apply Rmult_le_pos; [lra|]; assert (0 <= x * (1 - x)) by (apply Rmult_le_pos; lra); lra).
  lra.
Qed.

(** ** Single operations *)
Definition nz (x : binary64) : bool := match x with B754_zero _ _ _ => false | _ => true end.
Lemma nz_false x : nz x = false -> val64 x = 0.
Proof. by destruct x. Qed.
Lemma uro_u_ro : u_ro radix2 53 = uro.
Proof. unfold u_ro, uro. change (/ 2) with (bpow radix2 (-1)). rewrite <- bpow_plus. reflexivity. Qed.
Lemma add_value (x y : binary64) : finite64 (nadd x y) = true ->
  finite64 x = true /\ finite64 y = true /\ val64 (nadd x y) = rnd64 (val64 x + val64 y).
Proof.
  intros Hf. assert (Hxy : finite64 x = true /\ finite64 y = true).
  { revert Hf. destruct x as [sa|sa|sa pa Ha|sa ma ea Ha], y as [sb|sb|sb pb Hb|sb mb eb Hb]; try (by intros _); cbn;
    try discriminate; try (destruct sa, sb; discriminate). }
  destruct Hxy as [Hx Hy]. split; [done|]. split; [done|].
  pose proof (Bplus_correct 53 1024 eq_refl eq_refl binop_nan_pl64 rne x y Hx Hy) as Hm.
  destruct (Rlt_bool _ _) eqn:Eb; [by destruct Hm|]. destruct Hm as (Hv&_). exfalso. revert Hv Hf.
  change (Bplus 53 1024 _ _ binop_nan_pl64 rne x y) with (nadd x y). by destruct (nadd x y).
Qed.
Lemma add_finite (x y : binary64) : finite64 x = true -> finite64 y = true ->
  Rabs (rnd64 (val64 x + val64 y)) < bpow radix2 1024 -> finite64 (nadd x y) = true.
Proof.
  intros Hx Hy Hb. pose proof (Bplus_correct 53 1024 eq_refl eq_refl binop_nan_pl64 rne x y Hx Hy) as Hm.
  rewrite Rlt_bool_true in Hm by done. by destruct Hm as (_&Hf&_).
Qed.
Lemma mul_value (x y : binary64) : finite64 (nmul x y) = true ->
  finite64 x = true /\ finite64 y = true /\ val64 (nmul x y) = rnd64 (val64 x * val64 y).
Proof.
  intros Hf. assert (Hxy : finite64 x = true /\ finite64 y = true).
  { revert Hf. destruct x as [sa|sa|sa pa Ha|sa ma ea Ha], y as [sb|sb|sb pb Hb|sb mb eb Hb]; try (by intros _); cbn; discriminate. }
  destruct Hxy as [Hx Hy]. split; [done|]. split; [done|].
  pose proof (Bmult_correct 53 1024 eq_refl eq_refl binop_nan_pl64 rne x y) as Hm.
  destruct (Rlt_bool _ _) eqn:Eb; [by destruct Hm|]. exfalso. revert Hm Hf.
  change (Bmult 53 1024 _ _ binop_nan_pl64 rne x y) with (nmul x y). by destruct (nmul x y).
Qed.
Lemma mul_finite (x y : binary64) : finite64 x = true -> finite64 y = true ->
  Rabs (rnd64 (val64 x * val64 y)) < bpow radix2 1024 -> finite64 (nmul x y) = true.
Proof.
  intros Hx Hy Hb. pose proof (Bmult_correct 53 1024 eq_refl eq_refl binop_nan_pl64 rne x y) as Hm.
  rewrite Rlt_bool_true in Hm by done. destruct Hm as (_&Hf&_). rewrite Hx, Hy in Hf. done.
Qed.
Lemma rnd_plus_err (x y : binary64) : Rabs (rnd64 (val64 x + val64 y) - (val64 x + val64 y)) <= uro * Rabs (val64 x + val64 y).
Proof.
  destruct (FLT_plus_error_N_ex radix2 (-1074) 53 (fun n => negb (Z.even n)) (val64 x) (val64 y))
    as (eps&He&Hr); [apply val64_format|apply val64_format|].
  rewrite uro_u_ro in He. change (round radix2 (FLT_exp (-1074) 53) _ _) with (rnd64 (val64 x + val64 y)) in Hr. rewrite Hr.
  replace ((val64 x + val64 y) * (1 + eps) - (val64 x + val64 y)) with (eps * (val64 x + val64 y)) by lra.
  rewrite Rabs_mult. apply Rmult_le_compat_r; [apply Rabs_pos|]. eapply Rle_trans; [exact He|].
  pose proof uro_pos. apply (Rmult_le_reg_r (1 + uro)); [lra|]. field_simplify; nra.
Qed.
Lemma rnd_mult_err (r : R) : Rabs (rnd64 r - r) <= uro * Rabs r + tiny.
Proof.
  destruct (error_N_FLT radix2 (-1074) 53 eq_refl (fun n => negb (Z.even n)) r) as (eps&eta&He&Ht&_&Hr).
  change (round radix2 (FLT_exp (-1074) 53) _ _) with (rnd64 r) in Hr. rewrite Hr.
  change (Rabs eps <= u_ro radix2 53) in He. rewrite uro_u_ro in He.
  assert (Ht' : / 2 * bpow radix2 (-1074) = tiny).
  { unfold tiny. change (/ 2) with (bpow radix2 (-1)). rewrite <- bpow_plus. reflexivity. }
  rewrite Ht' in Ht. replace (r * (1 + eps) + eta - r) with (eps * r + eta) by lra.
  eapply Rle_trans; [apply Rabs_triang|]. rewrite Rabs_mult. pose proof (Rabs_pos r). nra.
Qed.

(** ** Sums *)
Definition cnt (f : nat -> binary64) (ks : list nat) : nat := length (filter (fun k => nz (f k) = true) ks).
Lemma cnt_snoc f ks k : cnt f (ks ++ [k]) = (cnt f ks + if nz (f k) then 1 else 0)%nat.
Proof. unfold cnt. rewrite filter_app, app_length. f_equal. rewrite filter_cons. case_decide as Hd; [by rewrite Hd|]. by destruct (nz (f k)). Qed.
Lemma dot_snoc' (f : nat -> binary64) ks k : dot f (ks ++ [k]) = nadd (dot f ks) (f k).
Proof. unfold dot. by rewrite foldl_app. Qed.

Lemma dot64_err (f : nat -> binary64) ks : finite64 (dot f ks) = true ->
  (forall k, k ∈ ks -> finite64 (f k) = true) /\
  Rabs (val64 (dot f ks) - rsum (fun k => val64 (f k)) ks) <= (w (cnt f ks) - 1) * rsum (fun k => Rabs (val64 (f k))) ks.
Proof.
  induction ks as [|k ks IH] using rev_ind; intros Hf.
  - split; [by intros k Hk%elem_of_nil|]. cbn. rewrite Rminus_0_r, Rabs_R0. lra.
  - rewrite dot_snoc' in Hf. destruct (add_value _ _ Hf) as (Hd&Hk&Hv). destruct (IH Hd) as [Hall He].
    split; [intros k' [Hk'|Hk'%elem_of_list_singleton]%elem_of_app; [by apply Hall|by subst]|].
    rewrite dot_snoc', Hv, !rsum_app, cnt_snoc. cbn [rsum foldr]. rewrite !Rplus_0_r.
    set (S := rsum (fun k => val64 (f k)) ks) in *. set (M := rsum (fun k => Rabs (val64 (f k))) ks) in *.
    assert (HSM : Rabs S <= M) by apply rsum_abs. assert (HM : 0 <= M) by (pose proof (Rabs_pos S); lra).
    set (s := val64 (dot f ks)) in *. set (x := val64 (f k)) in *.
    destruct (nz (f k)) eqn:Enz.
    + rewrite Nat.add_1_r. cbn [Rpow_def.pow]. set (W := w (cnt f ks)) in *. assert (HW : 1 <= W) by apply w_ge.
      pose proof uro_pos as Hu. pose proof (rnd_plus_err (dot f ks) (f k)) as Hr. fold s x in Hr.
      assert (H1 : Rabs (s + x) <= (W - 1) * M + M + Rabs x).
      { replace (s + x) with ((s - S) + S + x) by lra. pose proof (Rabs_triang (s - S + S) x). pose proof (Rabs_triang (s - S) S). lra. }
      replace (rnd64 (s + x) - (S + x)) with ((rnd64 (s + x) - (s + x)) + (s - S)) by lra.
      eapply Rle_trans; [apply Rabs_triang|]. pose proof (Rabs_pos x).
      apply Rle_trans with (uro * ((W - 1) * M + M + Rabs x) + (W - 1) * M); [nra|].
      assert (uro * Rabs x <= ((1 + uro) * W - 1) * Rabs x) by (apply Rmult_le_compat_r; nra). nra.
    + rewrite Nat.add_0_r. assert (x = 0) as Hx0 by (by apply nz_false). rewrite Hx0, Rabs_R0, !Rplus_0_r.
      rewrite rnd64_id by apply val64_format. exact He.
Qed.
Lemma dot64_finite (f : nat -> binary64) ks : (forall k, k ∈ ks -> finite64 (f k) = true) ->
  w (cnt f ks) * rsum (fun k => Rabs (val64 (f k))) ks < bpow radix2 1024 -> finite64 (dot f ks) = true.
Proof.
  induction ks as [|k ks IH] using rev_ind; intros Hall Hb; [done|].
  rewrite cnt_snoc, rsum_app in Hb. cbn [rsum foldr] in Hb. rewrite Rplus_0_r in Hb.
  assert (Hd : finite64 (dot f ks) = true).
  { apply IH; [set_solver|]. eapply Rle_lt_trans; [|exact Hb]. pose proof (Rabs_pos (val64 (f k))).
    assert (0 <= rsum (fun k => Rabs (val64 (f k))) ks) by (apply rsum_nonneg; intros; apply Rabs_pos).
    pose proof (w_ge (cnt f ks)). pose proof (w_mono (cnt f ks) (cnt f ks + (if nz (f k) then 1 else 0)) ltac:(lia)). nra. }
  rewrite dot_snoc'. apply add_finite; [done|apply Hall; set_solver|].
  destruct (dot64_err f ks Hd) as [_ He]. set (s := val64 (dot f ks)) in *. set (x := val64 (f k)) in *.
  set (S := rsum (fun k => val64 (f k)) ks) in *. set (M := rsum (fun k => Rabs (val64 (f k))) ks) in *.
  assert (HSM : Rabs S <= M) by apply rsum_abs. assert (HM : 0 <= M) by (pose proof (Rabs_pos S); lra).
  assert (Hs : Rabs s <= w (cnt f ks) * M).
  { replace s with ((s - S) + S) by lra. pose proof (Rabs_triang (s - S) S). lra. }
  eapply Rle_lt_trans; [|exact Hb]. pose proof (Rabs_pos x) as Hx. destruct (nz (f k)) eqn:Enz.
  - rewrite Nat.add_1_r. cbn [Rpow_def.pow]. pose proof (rnd_plus_err (dot f ks) (f k)) as Hr. fold s x in Hr.
    pose proof uro_pos. pose proof (w_ge (cnt f ks)) as HW. set (W := w (cnt f ks)) in *.
    replace (rnd64 (s + x)) with ((rnd64 (s + x) - (s + x)) + (s + x)) by lra.
    eapply Rle_trans; [apply Rabs_triang|]. pose proof (Rabs_triang s x).
    apply Rle_trans with ((1 + uro) * (W * M + Rabs x)); [nra|].
    assert ((1 + uro) * Rabs x <= (1 + uro) * W * Rabs x) by (apply Rmult_le_compat_r; nra). nra.
  - rewrite Nat.add_0_r. assert (x = 0) as Hx0 by (by apply nz_false). rewrite Hx0, Rabs_R0, !Rplus_0_r.
    rewrite rnd64_id by apply val64_format. exact Hs.
Qed.

(** Sums of approximations. *)
Lemma dot64_approx (f : nat -> binary64) (g m c : nat -> R) h n ks :
  (cnt f ks <= n)%nat ->
  (forall k, k ∈ ks -> finite64 (f k) = true ->
     Rabs (val64 (f k) - g k) <= (w h - 1) * m k + c k * tiny * w h /\ Rabs (g k) <= m k /\ 0 <= c k) ->
  finite64 (dot f ks) = true ->
  Rabs (val64 (dot f ks) - rsum g ks) <= (w (h + n) - 1) * rsum m ks + rsum c ks * tiny * w (h + n).
Proof.
  intros Hn Hap Hfin. destruct (dot64_err f ks Hfin) as [Hall He].
  assert (Hap' : forall k, k ∈ ks -> Rabs (val64 (f k) - g k) <= (w h - 1) * m k + c k * tiny * w h /\ Rabs (g k) <= m k /\ 0 <= c k)
    by (intros k Hk; by apply Hap, Hall).
  clear Hap Hall. pose proof (w_ge h) as Hh. pose proof (w_ge n) as Hwn. pose proof (w_mono _ _ Hn) as Hmono. pose proof tiny_pos as Ht.
  rewrite pow_add. set (H := w h) in *. set (W := w n) in *. set (W' := w (cnt f ks)) in *.
  set (S := rsum (fun k => val64 (f k)) ks) in *.
  set (M := rsum m ks). set (Cc := rsum c ks).
  assert (HM : 0 <= M). { apply rsum_nonneg. intros k Hk. destruct (Hap' k Hk) as (_&Hg&_). pose proof (Rabs_pos (g k)). lra. }
  assert (HC : 0 <= Cc). { apply rsum_nonneg. intros k Hk. by destruct (Hap' k Hk) as (_&_&Hc). }
  assert (H1 : Rabs (S - rsum g ks) <= (H - 1) * M + Cc * tiny * H).
  { replace (S - rsum g ks) with (rsum (fun k => val64 (f k) + -1 * g k) ks) by (rewrite rsum_plus, rsum_mult; unfold S; lra).
    eapply Rle_trans; [apply rsum_abs|].
    replace ((H - 1) * M + Cc * tiny * H) with (rsum (fun k => (H - 1) * m k + (tiny * H) * c k) ks)
      by (rewrite rsum_plus, !rsum_mult; unfold M, Cc; lra).
    apply rsum_le. intros k Hk. destruct (Hap' k Hk) as (Hk1&_). replace (val64 (f k) + -1 * g k) with (val64 (f k) - g k) by lra. lra. }
  assert (H2 : rsum (fun k => Rabs (val64 (f k))) ks <= H * M + Cc * tiny * H).
  { replace (H * M + Cc * tiny * H) with (rsum (fun k => H * m k + (tiny * H) * c k) ks)
      by (rewrite rsum_plus, !rsum_mult; unfold M, Cc; lra).
    apply rsum_le. intros k Hk. destruct (Hap' k Hk) as (Hk1&Hk2&Hk3).
    replace (val64 (f k)) with ((val64 (f k) - g k) + g k) by lra. pose proof (Rabs_triang (val64 (f k) - g k) (g k)). lra. }
  set (S2 := rsum (fun k => Rabs (val64 (f k))) ks) in *.
  assert (H3 : 0 <= S2) by (apply rsum_nonneg; intros; apply Rabs_pos).
  replace (val64 (dot f ks) - rsum g ks) with ((val64 (dot f ks) - S) + (S - rsum g ks)) by lra.
  eapply Rle_trans; [apply Rabs_triang|].
  assert (H4 : (W' - 1) * S2 <= (W - 1) * (H * M + Cc * tiny * H)).
  { apply Rle_trans with ((W - 1) * S2); [apply Rmult_le_compat_r; lra|]. apply Rmult_le_compat_l; lra. }
  assert (Hg : (W - 1) * (H * M + Cc * tiny * H) + ((H - 1) * M + Cc * tiny * H) = (H * W - 1) * M + Cc * tiny * (H * W)) by ring.
  lra.
Qed.

(** Sums of numbers bounded by [d] do not overflow. *)
Lemma w_514 n : (n <= 514)%nat -> w n <= 1 + 514 * uro + 514 * uro * (514 * uro).
Proof.
  intros Hn. assert (Hi : 0 <= INR n <= 514) by (split; [apply pos_INR|rewrite INR_IZR_INZ; apply IZR_le; lia]).
  pose proof uro_small as Hs. pose proof uro_pos as Hp.
  assert (H1 : 0 <= INR n * uro) by (apply Rmult_le_pos; lra).
  assert (H2 : INR n * uro <= 514 * uro) by (apply Rmult_le_compat_r; lra).
  pose proof (w_upper n ltac:(lra)) as Hu. assert (INR n * uro * (INR n * uro) <= 514 * uro * (514 * uro)) by (apply Rmult_le_compat; lra). lra.
Qed.
Lemma w_512 n : (n <= 514)%nat -> w n <= 2.
Proof.
  intros Hn. pose proof (w_514 n Hn) as Hu. pose proof uro_small as Hs. pose proof uro_pos as Hp.
  assert (514 * uro <= 514 / 1000000) by lra. assert (514 * uro * (514 * uro) <= 1 / 2 * (1 / 2)) by (apply Rmult_le_compat; lra). lra.
Qed.
Lemma big_bpow : 4194304 < bpow radix2 1024.
Proof. apply Rlt_le_trans with (bpow radix2 23); [change (bpow radix2 23) with (IZR 8388608); lra|apply bpow_le; lia]. Qed.
Lemma dot64_bounded (f : nat -> binary64) (d : nat -> R) ks :
  (forall k, k ∈ ks -> finite64 (f k) = true /\ Rabs (val64 (f k)) <= d k) -> (cnt f ks <= 514)%nat -> rsum d ks <= 1048576 ->
  finite64 (dot f ks) = true /\ Rabs (val64 (dot f ks)) <= 2 * rsum d ks.
Proof.
  intros Hd Hn Hs. pose proof (w_512 _ Hn) as Hw. pose proof (w_ge (cnt f ks)) as Hw1.
  assert (H1 : rsum (fun k => Rabs (val64 (f k))) ks <= rsum d ks) by (apply rsum_le; intros k Hk; by apply Hd).
  assert (H0 : 0 <= rsum (fun k => Rabs (val64 (f k))) ks) by (apply rsum_nonneg; intros; apply Rabs_pos).
  assert (Hfin : finite64 (dot f ks) = true).
  { apply dot64_finite; [intros k Hk; by apply Hd|]. pose proof big_bpow. apply Rle_lt_trans with (2 * 1048576); [apply Rmult_le_compat; lra|lra]. }
  split; [done|]. destruct (dot64_err f ks Hfin) as [_ He].
  pose proof (rsum_abs (fun k => val64 (f k)) ks) as Ha.
  set (S := rsum (fun k => val64 (f k)) ks) in *. set (M := rsum (fun k => Rabs (val64 (f k))) ks) in *.
  replace (val64 (dot f ks)) with ((val64 (dot f ks) - S) + S) by lra. pose proof (Rabs_triang (val64 (dot f ks) - S) S).
  assert ((w (cnt f ks) - 1) * M <= 1 * M) by (apply Rmult_le_compat_r; lra). lra.
Qed.

(** ** The summation orders *)
Section Orders.
  Variables (N : nat) (x y : nat -> binary64) (f : nat -> binary64).
  Hypothesis Hin : forall k, (k < N)%nat -> f k = nmul (x k) (y k).
  Hypothesis Hout : forall k, (N <= k)%nat -> f k = nzero.
  Let g (k : nat) : R := val64 (x k) * val64 (y k).
  Let g' (k : nat) : R := if decide (k < N)%nat then g k else 0.
  Let c' (k : nat) : R := if decide (k < N)%nat then 1 else 0.

  Lemma term_approx k : finite64 (f k) = true ->
    Rabs (val64 (f k) - g' k) <= (w 1 - 1) * Rabs (g' k) + c' k * tiny * w 1 /\ Rabs (g' k) <= Rabs (g' k) /\ 0 <= c' k.
  Proof.
    intros Hf. unfold g', c'. destruct (decide (k < N)%nat) as [Hk|Hk].
    - split; [|split; lra]. rewrite Hin in * by done. destruct (mul_value _ _ Hf) as (_&_&->). fold (g k).
      eapply Rle_trans; [apply rnd_mult_err|]. cbn [Rpow_def.pow]. pose proof tiny_pos. pose proof uro_pos. pose proof (Rabs_pos (g k)). nra.
    - split; [|split; lra]. rewrite Hout by lia. cbn. rewrite Rminus_0_r, Rabs_R0. lra.
  Qed.
  Lemma cnt_le_len (h : nat -> binary64) ks : (cnt h ks <= length ks)%nat.
  Proof. apply filter_length. Qed.
  Lemma cnt_le_below (h : nat -> binary64) ks n : NoDup ks -> (forall k, k ∈ ks -> (n <= k)%nat -> nz (h k) = false) -> (cnt h ks <= n)%nat.
  Proof.
    intros Hnd Hz. unfold cnt. rewrite <- (seq_length n 0). apply submseteq_length, NoDup_submseteq; [by apply NoDup_filter|].
    intros k [Hk1 Hk2]%elem_of_list_filter. apply elem_of_seq. destruct (decide (n <= k)%nat) as [Hk|]; [|lia].
    rewrite Hz in Hk1; done.
  Qed.
  Lemma sum_g : rsum g' (seq 0 N) = rsum g (seq 0 N).
  Proof. apply rsum_ext. intros k Hk%elem_of_seq. unfold g'. rewrite decide_True; [done|lia]. Qed.
  Lemma sum_ga : rsum (fun k => Rabs (g' k)) (seq 0 N) = rsum (fun k => Rabs (g k)) (seq 0 N).
  Proof. apply rsum_ext. intros k Hk%elem_of_seq. unfold g'. rewrite decide_True; [done|lia]. Qed.
  Lemma sum_c : rsum c' (seq 0 N) = INR N.
  Proof.
    rewrite (rsum_ext _ (fun _ => 1)); [by rewrite rsum_ones, seq_length|].
    intros k Hk%elem_of_seq. unfold c'. rewrite decide_True; [done|lia].
  Qed.
  Definition close_to (v : R) : Prop :=
    Rabs (v - rsum g (seq 0 N)) <= (w (N + 2) - 1) * rsum (fun k => Rabs (g k)) (seq 0 N) + INR N * tiny * w (N + 2).
  Lemma close_weaken v e : (e <= N + 2)%nat ->
    Rabs (v - rsum g (seq 0 N)) <= (w e - 1) * rsum (fun k => Rabs (g k)) (seq 0 N) + INR N * tiny * w e -> close_to v.
  Proof.
    intros He Hv. unfold close_to. eapply Rle_trans; [exact Hv|]. pose proof (w_mono _ _ He). pose proof tiny_pos. pose proof (pos_INR N).
    assert (0 <= rsum (fun k => Rabs (g k)) (seq 0 N)) by (apply rsum_nonneg; intros; apply Rabs_pos).
    apply Rplus_le_compat; [apply Rmult_le_compat_r; lra|apply Rmult_le_compat_l; [nra|lra]].
  Qed.
  Lemma straight_close : finite64 (dot f (seq 0 N)) = true -> close_to (val64 (dot f (seq 0 N))).
  Proof.
    intros Hf. apply (close_weaken _ (1 + N)); [lia|]. rewrite <- sum_g, <- sum_ga, <- sum_c.
    apply dot64_approx; [|by intros k _; apply term_approx|done].
    rewrite <- (seq_length N 0) at 2. apply cnt_le_len.
  Qed.

  Variables (b Q : nat).
  Hypothesis Hb : (0 < b)%nat.
  Hypothesis HQ : (N <= Q * b)%nat.
  Let chunk (q : nat) : binary64 := dot f (seq (q * b) b).
  Lemma zero_sum ks : (forall k, k ∈ ks -> (N <= k)%nat) -> dot f ks = nzero.
  Proof.
    unfold dot. induction ks as [|k ks IH]; intros Hk; [done|]. cbn [foldl]. rewrite Hout by (apply Hk; set_solver).
    change (nadd (nzero : binary64) nzero) with (nzero : binary64). apply IH. set_solver.
  Qed.
  Lemma cnt_inner q : (cnt f (seq (q * b) b) <= b `min` N)%nat.
  Proof.
    apply Nat.min_glb; [etransitivity; [apply cnt_le_len|by rewrite seq_length]|].
    apply cnt_le_below; [apply NoDup_seq|]. intros k _ Hk. by rewrite Hout.
  Qed.
  Lemma cnt_outer : (cnt chunk (seq 0 Q) <= cdiv N b)%nat.
  Proof.
    apply cnt_le_below; [apply NoDup_seq|]. intros q _ Hq. unfold chunk. rewrite zero_sum; [done|].
    intros k Hk%elem_of_seq. unfold cdiv in Hq. pose proof (Nat.div_mod (N + (b - 1)) b ltac:(lia)).
    pose proof (Nat.mod_upper_bound (N + (b - 1)) b ltac:(lia)). nia.
  Qed.
  Lemma exponent : (1 + b `min` N + cdiv N b <= N + 2)%nat.
  Proof.
    unfold cdiv. pose proof (Nat.div_mod (N + (b - 1)) b ltac:(lia)) as E.
    pose proof (Nat.mod_upper_bound (N + (b - 1)) b ltac:(lia)) as Hm. set (c := ((N + (b - 1)) / b)%nat) in *.
    set (r := ((N + (b - 1)) mod b)%nat) in *. clearbody c r. clear -E Hm Hb.
    destruct (Nat.min_spec b N) as [[H1 ->]|[H1 ->]].
    - destruct c as [|[|c]]; [lia|lia|]. destruct b as [|b']; [lia|]. nia.
    - destruct c as [|[|c]]; [lia|lia|]. nia.
  Qed.
  Lemma chunked_close : finite64 (dot chunk (seq 0 Q)) = true -> close_to (val64 (dot chunk (seq 0 Q))).
  Proof.
    intros Hf. apply (close_weaken _ (1 + b `min` N + cdiv N b)); [apply exponent|].
    rewrite <- sum_g, <- sum_ga, <- sum_c.
    rewrite <- (rsum_pad g' N (Q * b)), <- (rsum_pad (fun k => Rabs (g' k)) N (Q * b)), <- (rsum_pad c' N (Q * b)); try assumption;
      try (intros k Hk; unfold g', c'; rewrite decide_False by lia; rewrite ?Rabs_R0; reflexivity).
    rewrite <- !rsum_chunks. apply dot64_approx; [apply cnt_outer| |done].
    intros q _ Hq. split; [|split].
    - apply dot64_approx; [apply cnt_inner|by intros k _; apply term_approx|done].
    - apply rsum_abs.
    - apply rsum_nonneg. intros k _. unfold c'. destruct (decide _); lra.
  Qed.

  (** *** Boundedness *)
  Hypothesis Hx : forall k, (k < N)%nat -> finite64 (x k) = true /\ Rabs (val64 (x k)) <= 1.
  Hypothesis Hy : forall k, (k < N)%nat -> finite64 (y k) = true /\ Rabs (val64 (y k)) <= 1.
  Hypothesis HN : (N <= 512)%nat.
  Lemma rnd_one : rnd64 1 = 1.
  Proof. rewrite <- one_value. apply rnd64_id, val64_format. Qed.
  Lemma term_bounded k : finite64 (f k) = true /\ Rabs (val64 (f k)) <= c' k.
  Proof.
    clear b Q Hb HQ chunk. unfold c'. destruct (decide (k < N)%nat) as [Hk|Hk]; [|rewrite Hout by lia; cbn; rewrite Rabs_R0; split; [done|lra]].
    rewrite Hin by done. destruct (Hx k Hk) as [Hx1 Hx2]. destruct (Hy k Hk) as [Hy1 Hy2].
    assert (Hp : Rabs (val64 (x k) * val64 (y k)) <= 1).
    { rewrite Rabs_mult. pose proof (Rabs_pos (val64 (x k))). pose proof (Rabs_pos (val64 (y k))). nra. }
    assert (Hr : Rabs (rnd64 (val64 (x k) * val64 (y k))) <= 1) by (rewrite <- rnd64_abs, <- rnd_one; by apply rnd64_le).
    assert (Hf : finite64 (nmul (x k) (y k)) = true).
    { apply mul_finite; [done..|]. pose proof big_bpow. lra. }
    split; [done|]. destruct (mul_value _ _ Hf) as (_&_&->). done.
  Qed.
  Lemma INR_512 : INR N <= 512.
  Proof. clear -HN. rewrite INR_IZR_INZ. apply IZR_le. lia. Qed.
  Lemma straight_finite : finite64 (dot f (seq 0 N)) = true.
  Proof.
    apply (dot64_bounded _ c'); [by intros k _; apply term_bounded| |].
    - etransitivity; [apply cnt_le_len|]. rewrite seq_length. clear -HN. lia.
    - rewrite sum_c. pose proof INR_512. lra.
  Qed.
  Lemma chunked_finite : finite64 (dot chunk (seq 0 Q)) = true.
  Proof.
    assert (Hc0 : forall k, 0 <= c' k) by (intros k; unfold c'; destruct (decide _); lra).
    assert (Htot : rsum (fun q => rsum c' (seq (q * b) b)) (seq 0 Q) <= 512).
    { rewrite rsum_chunks, (rsum_pad c' N (Q * b)), sum_c; [apply INR_512|done|].
      intros k Hk. unfold c'. rewrite decide_False by lia. done. }
    apply (dot64_bounded _ (fun q => 2 * rsum c' (seq (q * b) b))).
    - intros q Hq. apply dot64_bounded; [by intros k _; apply term_bounded| |].
      + pose proof (cnt_inner q). lia.
      + apply Rle_trans with (rsum (fun q => rsum c' (seq (q * b) b)) (seq 0 Q)); [|lra].
        apply elem_of_list_split in Hq as (l1&l2&->). rewrite rsum_app. cbn [rsum foldr].
        pose proof (rsum_nonneg (fun q => rsum c' (seq (q * b) b)) l1 (fun q _ => rsum_nonneg _ _ (fun k _ => Hc0 k))).
        pose proof (rsum_nonneg (fun q => rsum c' (seq (q * b) b)) l2 (fun q _ => rsum_nonneg _ _ (fun k _ => Hc0 k))).
        unfold rsum in *. lra.
    - pose proof cnt_outer. pose proof exponent. lia.
    - rewrite rsum_mult. lra.
  Qed.
End Orders.
