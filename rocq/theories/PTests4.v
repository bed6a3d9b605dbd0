(** The literals of the test suites are the doubles nearest to what is written. *)
From Coq Require Import ZArith Reals Psatz.
From Flocq Require Import Core IEEE754.Binary IEEE754.Bits.
From Verif Require Import Base Num MCeil MDouble MReport PCeil PDouble PRound PReport PExact64 MTests.

#[local] Instance prec53t : Prec_gt_0 53 := eq_refl.
#[local] Instance fexp64_validt : Valid_exp fexp64.
Proof. apply (FLT_exp_valid (-1074) 53). Qed.
Local Open Scope R_scope.

Lemma ten_range e : (0 <= e <= 15)%Z -> (1 <= 10 ^ e <= 2 ^ 53)%Z.
Proof.
  intros He. split.
  - change 1%Z with (10 ^ 0)%Z. apply Z.pow_le_mono_r; lia.
  - transitivity (10 ^ 15)%Z; [apply Z.pow_le_mono_r; lia|]. lia.
Qed.
Lemma literal_nearest d : (Z.abs (d_mant d) <= 2 ^ 53)%Z -> (0 <= d_exp d <= 15)%Z ->
  finite64 (double_literal d) = true /\
  forall y, finite64 y = true ->
    Rabs (val64 (double_literal d) - IZR (d_mant d) / IZR (10 ^ d_exp d)) <= Rabs (val64 y - IZR (d_mant d) / IZR (10 ^ d_exp d)).
Proof.
  intros Hm He. pose proof (ten_range _ He) as Ht.
  destruct (double_of_holds _ Hm) as (F1 & E1 & _).
  destruct (double_of_holds (10 ^ d_exp d)%Z ltac:(lia)) as (F2 & E2 & _).
  set (x := IZR (d_mant d) / IZR (10 ^ d_exp d)).
  assert (H10 : 1 <= IZR (10 ^ d_exp d)) by (apply IZR_le; lia).
  assert (Hx : Rabs x <= bpow radix2 53).
  { unfold x, Rdiv. rewrite Rabs_mult, (abs_IZR (d_mant d)), Rabs_inv, (Rabs_pos_eq (IZR (10 ^ _))) by lra.
    assert (IZR (Z.abs (d_mant d)) <= bpow radix2 53) as HB by (change (bpow radix2 53) with (IZR (2 ^ 53)); by apply IZR_le).
    assert (0 <= IZR (Z.abs (d_mant d))) as H0 by (apply IZR_le; lia).
    assert (/ IZR (10 ^ d_exp d) <= 1) by (rewrite <- Rinv_1; apply Rinv_le; lra).
    assert (0 < / IZR (10 ^ d_exp d)) by (apply Rinv_0_lt_compat; lra). nra. }
  destruct (div_correct64 (double_of (d_mant d)) (double_of (10 ^ d_exp d))) as [E F].
  - exact F1.
  - rewrite E2. lra.
  - rewrite E1, E2. fold x. apply Rle_lt_trans with (bpow radix2 53); [|apply bpow_lt; lia].
    apply abs_round_le_generic; [apply _|apply _| |exact Hx].
    apply generic_format_bpow. unfold fexp64, SpecFloat.fexp, SpecFloat.emin. lia.
  - rewrite E1, E2 in E. fold x in E. split; [exact F|]. intros y Hy.
    change (double_literal d) with (div64 (double_of (d_mant d)) (double_of (10 ^ d_exp d))). rewrite E.
    exact (proj2 (round_N_pt radix2 fexp64 _ x) _ (generic_format_B2R 53 1024 y)).
Qed.

Definition exact_literals (s : source) : bool :=
  match s with
  | Literal l | Transposed_literal l => forallb (fun d => (Z.abs (d_mant d) <=? 2 ^ 53)%Z && (0 <=? d_exp d)%Z && (d_exp d <=? 15)%Z) l
  | Random => true
  end.
Lemma literals_exact : forallb (fun c => exact_literals (c_A c) && exact_literals (c_B c)) all_cases = true.
Proof. vm_compute. reflexivity. Qed.
Lemma suite_literals c l d : c ∈ all_cases -> (c_A c = Literal l \/ c_A c = Transposed_literal l \/ c_B c = Literal l \/ c_B c = Transposed_literal l) -> d ∈ l ->
  finite64 (double_literal d) = true /\
  forall y, finite64 y = true ->
    Rabs (val64 (double_literal d) - IZR (d_mant d) / IZR (10 ^ d_exp d)) <= Rabs (val64 y - IZR (d_mant d) / IZR (10 ^ d_exp d)).
Proof.
  intros Hc Hs Hd. pose proof literals_exact as L. rewrite forallb_forall in L.
  specialize (L c ltac:(by apply elem_of_list_In)). apply andb_prop in L as [LA LB].
  assert (X : exact_literals (Literal l) = true) by (destruct Hs as [E|[E|[E|E]]]; first [rewrite E in LA; exact LA|rewrite E in LB; exact LB]).
  cbn [exact_literals] in X. rewrite forallb_forall in X. specialize (X d ltac:(by apply elem_of_list_In)).
  apply andb_prop in X as [X X3]. apply andb_prop in X as [X1 X2]. apply Z.leb_le in X1, X2, X3.
  apply literal_nearest; lia.
Qed.
