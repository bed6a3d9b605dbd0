(** Numerical facts for the test cases. *)
From Coq Require Import ZArith Reals Psatz.
From Flocq Require Import Core IEEE754.Binary IEEE754.Bits.
From Verif Require Import Base Conc ConcFacts Num Spec SpecTiled SpecContract MCeil PCeil MDouble PDouble SpecApp SpecRound PRound PRound2 MContract PContract PContract2 PContract3 Tools PUtil SpecExact PExact64 MTests SpecTests.
Local Open Scope R_scope.

#[local] Instance prec53t : Prec_gt_0 53 := eq_refl.
#[local] Instance fexp64_validt : Valid_exp fexp64.
Proof. apply (FLT_exp_valid (-1074) 53). Qed.
#[local] Instance rne_validt : Valid_rnd (BinarySingleNaN.round_mode rne).
Proof. apply valid_rnd_N. Qed.

(** ** The small check *)
Definition eps : R := bpow radix2 (-27).
Lemma eps_format : generic_format radix2 fexp64 eps.
Proof. apply generic_format_bpow. cbn. unfold SpecFloat.fexp, SpecFloat.emin. lia. Qed.
Lemma small_below (tol : binary64) (x y : binary64) : finite64 tol = true -> eps < val64 tol ->
  finite64 x = true -> finite64 y = true -> Rabs (val64 x - val64 y) <= eps -> check_small tol (absdiff64 x y) = true.
Proof.
  intros Ht Hlt Hx Hy Hd. unfold check_small, lt64, absdiff64.
  assert (Hr : Rabs (rnd64 (val64 x - val64 y)) <= eps).
  { rewrite <- rnd64_abs. rewrite <- (rnd64_id eps eps_format). by apply rnd64_le. }
  pose proof (Bminus_correct 53 1024 eq_refl eq_refl binop_nan_pl64 rne x y Hx Hy) as Hm.
  rewrite Rlt_bool_true in Hm by (eapply Rle_lt_trans; [exact Hr|]; apply bpow_lt; lia).
  destruct Hm as (Hv&Hf&_). change (Bminus 53 1024 _ _ binop_nan_pl64 rne) with (b64_minus rne) in Hv, Hf.
  unfold b64_compare. rewrite Bcompare_correct; [|unfold b64_abs; by rewrite !is_finite_Babs|done].
  unfold b64_abs. rewrite !B2R_Babs, Rabs_Rabsolu, Hv. rewrite Rcompare_Lt; [done|]. eapply Rle_lt_trans; eassumption.
Qed.
Lemma tol8 : finite64 (double_literal (Dec 1 8)) = true /\ eps < val64 (double_literal (Dec 1 8)).
Proof.
  assert (E : double_literal (Dec 1 8) = B754_finite 53 1024 false 6044629098073146 (-79) eq_refl) by (apply B2FF_inj; vm_compute; reflexivity).
  rewrite E. split; [done|]. unfold eps, B2R, F2R. cbn [Fnum Fexp cond_Zopp Defs.Fnum Defs.Fexp]. rewrite (bp 27), (bp 79).
  change (2 ^ 27)%Z with 134217728%Z. change (2 ^ 79)%Z with 604462909807314587353088%Z. lra.
Qed.
Lemma tol5 : finite64 (double_literal (Dec 1 5)) = true /\ eps < val64 (double_literal (Dec 1 5)).
Proof.
  assert (E : double_literal (Dec 1 5) = B754_finite 53 1024 false 5902958103587057 (-69) eq_refl) by (apply B2FF_inj; vm_compute; reflexivity).
  rewrite E. split; [done|]. unfold eps, B2R, F2R. cbn [Fnum Fexp cond_Zopp Defs.Fnum Defs.Fexp]. rewrite (bp 27), (bp 69).
  change (2 ^ 27)%Z with 134217728%Z. change (2 ^ 69)%Z with 590295810358705651712%Z. lra.
Qed.
(** ** The close check *)
Lemma close01 : check_close (double_literal (Dec 1 10)) (double_of 1) (double_of 1) = true /\
  check_close (double_literal (Dec 1 10)) (double_of 0) (double_of 0) = true.
Proof. split; vm_compute; reflexivity. Qed.

(** ** Doubles as scaled integers *)
Definition scaled (s : Z) (x : binary64) : option Z :=
  match x with
  | B754_zero _ _ _ => Some 0%Z
  | B754_finite _ _ sg m e _ => if (0 <=? e + s)%Z then Some (cond_Zopp sg (Z.pos m) * 2 ^ (e + s))%Z else None
  | _ => None
  end.
Lemma scaled_val s x z : scaled s x = Some z -> finite64 x = true /\ val64 x = IZR z * bpow radix2 (- s).
Proof.
  destruct x as [sg|sg|sg pl Hpl|sg m e He]; cbn [scaled]; intros H; try done.
  - injection H as <-. split; [done|]. cbn [B2R]. lra.
  - destruct (Z.leb_spec 0 (e + s)) as [Hes|]; [|done]. injection H as <-. split; [done|]. unfold B2R, F2R. cbn [Fnum Fexp Defs.Fnum Defs.Fexp].
    rewrite mult_IZR. change (2 ^ (e + s))%Z with (Zpower radix2 (e + s)). rewrite IZR_Zpower by done. rewrite Rmult_assoc, <- bpow_plus.
    f_equal. f_equal. lia.
Qed.
Definition zent (w : nat) (M : list Z) (i j : nat) : Z := default 0%Z (M !! (i * w + j)%nat).
Definition zsum (f : nat -> Z) (ks : list nat) : Z := foldr (fun k s => f k + s)%Z 0%Z ks.
Definition zprod (N : nat) (X Y : list Z) (i j : nat) : Z := zsum (fun k => zent N X i k * zent N Y k j)%Z (seq 0 N).
Definition zdelta (one : Z) (i j : nat) : Z := if decide (i = j) then one else 0%Z.
Definition bounded_by (b : Z) (X : list Z) : bool := forallb (fun z => Z.abs z <=? b)%Z X.
Definition near_delta (N : nat) (one slack : Z) (X Y : list Z) : bool :=
  forallb (fun i => forallb (fun j => Z.abs (zprod N X Y i j - zdelta one i j) <=? slack)%Z (seq 0 N)) (seq 0 N).
(** A and B are inverse to each other up to 2^-30; no entry exceeds 8. *)
Definition inverse_pair (N : nat) (la lb : list decimal) : bool :=
  (length la =? N * N)%nat && (length lb =? N * N)%nat &&
  match mapM (scaled 70) (double_literal <$> la), mapM (scaled 70) (double_literal <$> lb) with
  | Some X, Some Y => bounded_by (2 ^ 73) X && bounded_by (2 ^ 73) Y && near_delta N (2 ^ 140) (2 ^ 110) X Y && near_delta N (2 ^ 140) (2 ^ 110) Y X
  | _, _ => false
  end.
Lemma inverse2 : inverse_pair 2 inverse_A2 inverse_B2 = true.
Proof. vm_compute. reflexivity. Qed.
Lemma inverse4 : inverse_pair 4 inverse_A4 inverse_B4 = true.
Proof. vm_compute. reflexivity. Qed.
Lemma inverse8 : inverse_pair 8 inverse_A8 inverse_B8 = true.
Proof. vm_compute. reflexivity. Qed.

Definition delta (i j : nat) : R := if decide (i = j) then 1 else 0.
Definition within8 (M : list binary64) : Prop := forall x, x ∈ M -> finite64 x = true /\ Rabs (val64 x) <= 8.
Definition near_identity (tr : bool) (N : nat) (X Y : list binary64) : Prop :=
  forall i j, (i < N)%nat -> (j < N)%nat -> Rabs (exact_entry tr N X Y i j - delta i j) <= bpow radix2 (-30).

Section Scaled.
  Context (N : nat) (X Y : list binary64) (ZX ZY : list Z).
  Hypothesis HX : mapM (scaled 70) X = Some ZX.
  Hypothesis HY : mapM (scaled 70) Y = Some ZY.
  Lemma scaled_ent M ZM i j : mapM (scaled 70) M = Some ZM -> val64 (ent N M i j) = IZR (zent N ZM i j) * bpow radix2 (-70).
  Proof.
    intros HM%mapM_Some. unfold ent, zent. destruct (M !! (i * N + j)%nat) as [x|] eqn:Ex.
    - destruct (Forall2_lookup_l _ _ _ _ _ HM Ex) as (z&->&Hz). apply scaled_val in Hz as [_ Hz]. exact Hz.
    - assert (ZM !! (i * N + j)%nat = None) as ->.
      { apply lookup_ge_None. rewrite <- (Forall2_length _ _ _ HM). by apply lookup_ge_None. }
      change (0 = 0 * bpow radix2 (-70)). lra.
  Qed.
  Lemma scaled_exact i j : exact_entry false N X Y i j = IZR (zprod N ZX ZY i j) * bpow radix2 (-140).
  Proof.
    unfold exact_entry, zprod, factor_b. induction (seq 0 N) as [|k ks IH]; cbn [rsum zsum foldr]; [unfold rsum, zsum; cbn; lra|].
    unfold rsum, zsum in *. cbn [foldr]. rewrite IH, plus_IZR, mult_IZR, (scaled_ent X ZX), (scaled_ent Y ZY) by done.
    replace (bpow radix2 (-140)) with (bpow radix2 (-70) * bpow radix2 (-70)) by (rewrite <- bpow_plus; done). ring.
  Qed.
  Lemma scaled_near : near_delta N (2 ^ 140) (2 ^ 110) ZX ZY = true -> near_identity false N X Y.
  Proof.
    intros Hn i j Hi Hj. unfold near_delta in Hn. rewrite forallb_forall in Hn. specialize (Hn i ltac:(apply in_seq; lia)).
    rewrite forallb_forall in Hn. specialize (Hn j ltac:(apply in_seq; lia)). apply Z.leb_le in Hn.
    rewrite scaled_exact.
    assert (E : delta i j = IZR (zdelta (2 ^ 140) i j) * bpow radix2 (-140)).
    { unfold delta, zdelta. destruct (decide _); [|lra]. change (2 ^ 140)%Z with (Zpower radix2 140). rewrite IZR_Zpower by lia. rewrite <- bpow_plus. done. }
    rewrite E, <- Rmult_minus_distr_r, <- minus_IZR, Rabs_mult, abs_IZR. rewrite (Rabs_pos_eq (bpow radix2 (-140))) by apply bpow_ge_0.
    replace (bpow radix2 (-30)) with (IZR (2 ^ 110) * bpow radix2 (-140)).
    - apply Rmult_le_compat_r; [apply bpow_ge_0|]. by apply IZR_le.
    - change (2 ^ 110)%Z with (Zpower radix2 110). rewrite IZR_Zpower by lia. rewrite <- bpow_plus. done.
  Qed.
  Lemma scaled_within : bounded_by (2 ^ 73) ZX = true -> within8 X.
  Proof.
    intros Hb x [k Hk]%elem_of_list_lookup. apply mapM_Some in HX. destruct (Forall2_lookup_l _ _ _ _ _ HX Hk) as (z&Hzk&Hz).
    apply scaled_val in Hz as [Hf Hv]. split; [done|]. unfold bounded_by in Hb. rewrite forallb_forall in Hb.
    specialize (Hb z ltac:(apply elem_of_list_In; by eapply elem_of_list_lookup_2)). apply Z.leb_le in Hb.
    rewrite Hv, Rabs_mult, abs_IZR. rewrite (Rabs_pos_eq (bpow radix2 _)) by apply bpow_ge_0.
    replace 8 with (IZR (2 ^ 73) * bpow radix2 (-70)).
    - apply Rmult_le_compat_r; [apply bpow_ge_0|]. by apply IZR_le.
    - change (2 ^ 73)%Z with (Zpower radix2 73). rewrite IZR_Zpower by lia. rewrite <- bpow_plus. reflexivity.
  Qed.
  Lemma scaled_integral : forallb (fun z => z mod 2 ^ 70 =? 0)%Z ZX = true -> integral X.
  Proof.
    intros Hb x [k Hk]%elem_of_list_lookup. apply mapM_Some in HX. destruct (Forall2_lookup_l _ _ _ _ _ HX Hk) as (z&Hzk&Hz).
    apply scaled_val in Hz as [Hf Hv]. split; [done|]. rewrite forallb_forall in Hb.
    specialize (Hb z ltac:(apply elem_of_list_In; by eapply elem_of_list_lookup_2)). apply Z.eqb_eq in Hb.
    exists (z / 2 ^ 70)%Z. rewrite Hv. rewrite (Z.div_mod z (2 ^ 70)) at 1 by done. rewrite Hb, Z.add_0_r, mult_IZR.
    change (2 ^ 70)%Z with (Zpower radix2 70) at 1. rewrite IZR_Zpower by lia.
    rewrite Rmult_comm, <- Rmult_assoc, <- bpow_plus. cbn [bpow Z.add Z.opp Z.pos_sub]. change (bpow radix2 (- (70) + 70)) with 1. apply Rmult_1_l.
  Qed.
End Scaled.

Lemma inverse_pair_facts N la lb : inverse_pair N la lb = true ->
  let X := double_literal <$> la in let Y := double_literal <$> lb in
  (length X = N * N)%nat /\ (length Y = N * N)%nat /\ within8 X /\ within8 Y /\ near_identity false N X Y /\ near_identity false N Y X.
Proof.
  intros H X Y. unfold inverse_pair in H. apply andb_prop in H as [[HlX HlY]%andb_prop H]. apply Nat.eqb_eq in HlX, HlY.
  destruct (mapM _ (double_literal <$> la)) as [ZX|] eqn:EX; [|done]. destruct (mapM _ (double_literal <$> lb)) as [ZY|] eqn:EY; [|done].
  apply andb_prop in H as [[[H1 H2]%andb_prop H3]%andb_prop H4].
  unfold X, Y. rewrite !fmap_length. split_and!; [done|done|by eapply scaled_within|by eapply scaled_within|by eapply scaled_near|by eapply scaled_near].
Qed.
Definition integers (la : list decimal) : bool :=
  match mapM (scaled 70) (double_literal <$> la) with Some Z => forallb (fun z => z mod 2 ^ 70 =? 0)%Z Z | None => false end.
Lemma integers_integral la : integers la = true -> integral (double_literal <$> la).
Proof. unfold integers. destruct (mapM _ _) as [Z|] eqn:E; [|done]. by apply scaled_integral. Qed.
Lemma integers2 : integers inverse_A2 = true /\ integers inverse_B2 = true.
Proof. split; vm_compute; reflexivity. Qed.

(** ** Transposing a factor *)
Section Transposed.
  Context (N : nat) (M R : list binary64).
  Hypothesis HM : (length M = N * N)%nat.
  Hypothesis HR : is_transpose N N M R.
  Lemma transposed_ent i j : (i < N)%nat -> (j < N)%nat -> ent N R i j = ent N M j i.
  Proof. intros Hi Hj. destruct HR as [_ H]. unfold ent. by rewrite H. Qed.
  Lemma transposed_in x : x ∈ R -> x ∈ M.
  Proof.
    intros [k Hk]%elem_of_list_lookup. assert (Hl : (k < N * N)%nat) by (destruct HR as [<- _]; by apply lookup_lt_Some in Hk).
    assert (Hn : (N <> 0)%nat) by (intros ->; lia).
    pose proof (Nat.mod_upper_bound k N Hn). assert (k / N < N)%nat by (apply Nat.div_lt_upper_bound; lia).
    rewrite (Nat.div_mod k N Hn), Nat.mul_comm in Hk. destruct HR as [_ H2]. rewrite H2 in Hk by lia.
    by eapply elem_of_list_lookup_2.
  Qed.
  Lemma transposed_right X i j : (i < N)%nat -> (j < N)%nat -> exact_entry true N X R i j = exact_entry false N X M i j.
  Proof.
    intros Hi Hj. unfold exact_entry, factor_b. apply rsum_ext. intros k Hk%elem_of_seq. by rewrite transposed_ent by lia.
  Qed.
  Lemma transposed_left X i j : (i < N)%nat -> (j < N)%nat -> exact_entry true N R X i j = exact_entry false N X M j i.
  Proof.
    intros Hi Hj. unfold exact_entry, factor_b. apply rsum_ext. intros k Hk%elem_of_seq. rewrite transposed_ent by lia. apply Rmult_comm.
  Qed.
  Lemma near_right X : near_identity false N X M -> near_identity true N X R.
  Proof. intros Hn i j Hi Hj. rewrite transposed_right by done. by apply Hn. Qed.
  Lemma near_left X : near_identity false N X M -> near_identity true N R X.
  Proof.
    intros Hn i j Hi Hj. rewrite transposed_left by done. specialize (Hn j i Hj Hi). replace (delta i j) with (delta j i); [done|].
    unfold delta. destruct (decide (j = i)), (decide (i = j)); congruence.
  Qed.
End Transposed.

(** ** Entries *)
Section Literal.
  Context (N : nat) (X Y : list binary64) (tr : bool).
  Hypothesis HX : (length X = N * N)%nat.
  Hypothesis HY : (length Y = N * N)%nat.
  Hypothesis HN : (N <= 8)%nat.
  Hypothesis H8X : within8 X.
  Hypothesis H8Y : within8 Y.
  Hypothesis Hnear : near_identity tr N X Y.
  Context (i j : nat).
  Hypothesis Hi : (i < N)%nat.
  Hypothesis Hj : (j < N)%nat.
  Lemma product64 x y : x ∈ X -> y ∈ Y -> Rabs (val64 x * val64 y) <= 64.
  Proof.
    intros Hx Hy. destruct (H8X x Hx) as [_ H1]. destruct (H8Y y Hy) as [_ H2]. rewrite Rabs_mult.
    apply Rle_trans with (8 * 8); [apply Rmult_le_compat; (apply Rabs_pos || done)|lra].
  Qed.
  Lemma magnitude512 : magnitude tr N X Y i j <= 512.
  Proof.
    unfold magnitude. apply Rle_trans with (rsum (fun _ => 64 * 1) (seq 0 N)).
    - apply rsum_le. intros k Hk%elem_of_seq. rewrite Rmult_1_r. apply product64; [apply ent_in; [done|lia|lia]|]. destruct tr; apply ent_in; (done || lia).
    - rewrite rsum_mult, rsum_ones, seq_length, INR_IZR_INZ. assert (IZR (Z.of_nat N) <= 8) by (apply IZR_le; lia). lra.
  Qed.
  Lemma literal_bound : error_bound tr N X Y i j <= bpow radix2 (-28).
  Proof.
    unfold error_bound. pose proof magnitude512 as Hm.
    assert (Hm0 : 0 <= magnitude tr N X Y i j) by (apply rsum_nonneg; intros; apply Rabs_pos).
    pose proof (w_512 (N + 2) ltac:(lia)) as H2. pose proof (w_ge (N + 2)) as H1.
    assert (HNr : 0 <= INR N <= 8) by (split; [apply pos_INR|rewrite INR_IZR_INZ; apply IZR_le; lia]).
    assert (Hw : w (N + 2) <= 1 + 514 * uro + 514 * uro * (514 * uro)) by (apply w_514; lia).
    assert (Hu : uro = / 9007199254740992) by (unfold uro; rewrite (bp 53); reflexivity).
    assert (Ht : 0 < tiny <= / 1267650600228229401496703205376).
    { split; [apply tiny_pos|]. apply Rle_trans with (bpow radix2 (-100)); [apply bpow_le; lia|]. rewrite (bp 100). apply Req_le. reflexivity. }
    assert (He : bpow radix2 (-28) = / 268435456) by (rewrite (bp 28); reflexivity).
    apply Rle_trans with ((514 * uro + 514 * uro * (514 * uro)) * 512 + 8 * / 1267650600228229401496703205376 * 2).
    - apply Rplus_le_compat; [apply Rmult_le_compat; lra|].
      apply Rmult_le_compat; [apply Rmult_le_pos; lra|lra| |lra]. apply Rmult_le_compat; lra.
    - rewrite Hu, He. lra.
  Qed.
  Lemma val_64 : val64 (double_of 64) = 64.
  Proof.
    assert (double_of 64 = B754_finite 53 1024 false 4503599627370496 (-46) eq_refl) as -> by (apply B2FF_inj; vm_compute; reflexivity).
    unfold B2R, F2R. simpl. lra.
  Qed.
  Lemma literal_finite q v : order_ok N tr q -> compiled (entry_in tr q N (TNum <$> X) (TNum <$> Y) i j) v -> finite64 v = true.
  Proof.
    intros Hq Hv. apply (compiled_finite_by N X Y i j HX HY Hi Hj (double_of 64) tr q v); try done.
    - rewrite val_64. lra.
    - intros x Hx. by apply H8X.
    - intros y Hy. by apply H8Y.
    - intros x y Hx Hy. rewrite val_64. by apply product64.
    - lia.
    - rewrite val_64, INR_IZR_INZ. assert (IZR (Z.of_nat N) <= 8) by (apply IZR_le; lia). lra.
  Qed.
  Lemma literal_near q v : order_ok N tr q -> compiled (entry_in tr q N (TNum <$> X) (TNum <$> Y) i j) v ->
    finite64 v = true /\ Rabs (val64 v - delta i j) <= eps.
  Proof.
    intros Hq Hv. pose proof (literal_finite q v Hq Hv) as Hf. split; [done|].
    pose proof (compiled_close N X Y i j HX HY Hi Hj tr q v Hq Hv Hf) as H1. pose proof literal_bound as H2. pose proof (Hnear i j Hi Hj) as H3.
    set (e := exact_entry tr N X Y i j) in *. set (E := error_bound tr N X Y i j) in *. clearbody E e.
    replace (val64 v - delta i j) with ((val64 v - e) + (e - delta i j)) by lra.
    eapply Rle_trans; [apply Rabs_triang|].
    assert (bpow radix2 (-28) + bpow radix2 (-30) <= eps).
    { unfold eps. rewrite (bp 28), (bp 30), (bp 27). change (2 ^ 28)%Z with 268435456%Z. change (2 ^ 30)%Z with 1073741824%Z. change (2 ^ 27)%Z with 134217728%Z. lra. }
    lra.
  Qed.
  Lemma literal_exact q v : integral X -> integral Y -> order_ok N tr q -> compiled (entry_in tr q N (TNum <$> X) (TNum <$> Y) i j) v ->
    v = double_of (if decide (i = j) then 1 else 0).
  Proof.
    intros HzX HzY Hq Hv. assert (Hm : magnitude tr N X Y i j <= bpow radix2 53).
    { eapply Rle_trans; [apply magnitude512|]. change 512 with (bpow radix2 9). apply bpow_le. lia. }
    destruct (compiled_exact N X Y i j tr HX HY Hi Hj HzX HzY Hm q v Hq Hv) as (z&He&_&->). f_equal.
    pose proof (Hnear i j Hi Hj) as H3. rewrite He in H3.
    assert (E : delta i j = IZR (if decide (i = j) then 1 else 0)) by (unfold delta; by destruct (decide _)).
    rewrite E, <- minus_IZR, abs_IZR in H3.
    assert (H4 : IZR (Z.abs (z - (if decide (i = j) then 1 else 0))) < 1).
    { eapply Rle_lt_trans; [exact H3|]. change 1 with (bpow radix2 0). apply bpow_lt. lia. }
    apply (lt_IZR _ 1) in H4. lia.
  Qed.
End Literal.

(** Random matrices *)
Section RandomEntries.
  Context (N : nat) (M : list binary64) (i j : nat).
  Hypothesis HM : (length M = N * N)%nat.
  Hypothesis HN : (Z.of_nat N <= 1024)%Z.
  Hypothesis Hi : (i < N)%nat.
  Hypothesis Hj : (j < N)%nat.
  Hypothesis Hu : unit_entries M.
  Lemma random_bound tr : 2 * error_bound tr N M M i j <= eps.
  Proof.
    unfold error_bound. assert (HNr : 0 <= INR N <= 1024) by (split; [apply pos_INR|rewrite INR_IZR_INZ; apply IZR_le; lia]).
    assert (Hm : magnitude tr N M M i j <= 1024).
    { unfold magnitude. apply Rle_trans with (rsum (fun _ => 1) (seq 0 N)).
      - apply rsum_le. intros k Hk%elem_of_seq. unfold factor_b. rewrite Rabs_mult.
        destruct (Hu (ent N M i k)) as [_ H1]; [apply ent_in; (done || lia)|].
        destruct (Hu (if tr then ent N M j k else ent N M k j)) as [_ H2]; [destruct tr; apply ent_in; (done || lia)|].
        apply Rle_trans with (1 * 1); [apply Rmult_le_compat; (apply Rabs_pos || done)|lra].
      - rewrite rsum_ones, seq_length. lra. }
    assert (Hm0 : 0 <= magnitude tr N M M i j) by (apply rsum_nonneg; intros; apply Rabs_pos).
    assert (Hu53 : uro = / 9007199254740992) by (unfold uro; rewrite (bp 53); reflexivity).
    assert (HN2 : 0 <= INR (N + 2) <= 1026) by (rewrite plus_INR; simpl; lra).
    assert (Hw : w (N + 2) <= 1 + 2000 * uro).
    { eapply Rle_trans; [apply w_upper|].
      - rewrite Hu53. lra.
      - rewrite Hu53. set (n := INR (N + 2)) in *. clearbody n. nra. }
    pose proof (w_ge (N + 2)) as H1.
    assert (Ht : 0 < tiny <= / 1267650600228229401496703205376).
    { split; [apply tiny_pos|]. apply Rle_trans with (bpow radix2 (-100)); [apply bpow_le; lia|]. rewrite (bp 100). apply Req_le. reflexivity. }
    assert (He : eps = / 134217728) by (unfold eps; rewrite (bp 27); reflexivity).
    fold (w (N + 2)). set (W := w (N + 2)) in *. clearbody W.
    apply Rle_trans with (2 * ((2000 * uro) * 1024 + 1024 * / 1267650600228229401496703205376 * 2)).
    - apply Rmult_le_compat_l; [lra|]. apply Rplus_le_compat; [apply Rmult_le_compat; lra|].
      apply Rmult_le_compat; [apply Rmult_le_pos; lra|lra| |rewrite Hu53 in Hw; lra]. apply Rmult_le_compat; lra.
    - rewrite Hu53, He. lra.
  Qed.
  Lemma random_near tr q q' v v' : order_ok N tr q -> order_ok N tr q' ->
    compiled (entry_in tr q N (TNum <$> M) (TNum <$> M) i j) v -> compiled (entry_in tr q' N (TNum <$> M) (TNum <$> M) i j) v' ->
    finite64 v = true /\ finite64 v' = true /\ Rabs (val64 v - val64 v') <= eps.
  Proof.
    intros Hq Hq' Hv Hv'. destruct (compiled_near N M M i j HM HM Hi Hj Hu Hu tr q q' v v' ltac:(lia) Hq Hq' Hv Hv') as (H1&H2&H3).
    split; [done|]. split; [done|]. eapply Rle_trans; [exact H3|]. apply random_bound.
  Qed.
End RandomEntries.
