(** The numbers in the output, and the documented runs. *)
From Coq Require Import ZArith Reals Ascii String Psatz.
From Flocq Require Import Core IEEE754.Binary IEEE754.Bits.
From Verif Require Import Base Conc Num MCeil PCeil MDouble PDouble SpecRound MPrint SpecPrint PPrint PPrint2 MReport PReport MBench PBench64
  MTranscript PTranscript PTranscript2 PTranscript3 PTiled PPseudo MApp SpecApp SpecReport SpecTranscript.
Local Open Scope R_scope.

(** * Short decimals survive *)
Lemma two53 : bpow radix2 53 = 9007199254740992.
Proof. change (IZR (Zpower_pos 2 53) = IZR 9007199254740992). f_equal. Qed.
Lemma ten_uro : 2 * uro < bpow ten (-15).
Proof.
  unfold uro. assert (bpow ten (-15) * bpow ten 15 = 1) as H1 by (rewrite <-bpow_plus; reflexivity).
  assert (bpow radix2 (-53) * bpow radix2 53 = 1) as H2 by (rewrite <-bpow_plus; reflexivity).
  rewrite (bpow_ten 15) in H1 by lia. change (10 ^ 15)%Z with 1000000000000000%Z in H1.
  rewrite two53 in H2. lra.
Qed.
Lemma short_survives P w x : (0 < P <= 15)%nat -> short_decimal P w -> finite64 x = true -> Rabs (val64 x - w) <= uro * Rabs w ->
  denotes (show64 P x) w.
Proof.
  intros HP Hw Hf Hx. destruct (show64_finite P x ltac:(lia) Hf) as (v & Hd & Hc & _).
  enough (v = w) by congruence. destruct (Req_dec w 0) as [E|E].
  - assert (val64 x = w) as Ex.
    { rewrite E, Rabs_R0, Rmult_0_r in Hx. pose proof (Rabs_pos (val64 x - 0)).
      destruct (Req_dec (val64 x - 0) 0) as [E'|E']; [lra|]. apply Rabs_no_R0 in E'. lra. }
    rewrite Ex in Hc. exact (closest_exact P w v Hw Hc).
  - apply (closest_near P (val64 x)); [exact Hw| |exact Hc]. rewrite Rabs_minus_sym. apply Rabs_pos_lt in E.
    assert (bpow ten (-15) <= bpow ten (- Z.of_nat P)) as Hb by (apply bpow_le; lia). pose proof ten_uro. nra.
Qed.
Lemma integer_exact P x z : (0 < P)%nat -> (Z.abs z < 10 ^ Z.of_nat P)%Z -> finite64 x = true -> val64 x = IZR z ->
  denotes (show64 P x) (IZR z).
Proof.
  intros HP Hz Hf Hx. destruct (show64_finite P x HP Hf) as (v & Hd & Hc & _). rewrite Hx in Hc.
  apply closest_exact in Hc; [by subst v|]. exists z, 0%Z. split; [exact Hz|]. cbn. lra.
Qed.
Lemma same_text : exists x y, finite64 x = true /\ finite64 y = true /\ val64 x <> val64 y /\ show64 6 x = show64 6 y.
Proof.
  exists (double_of 1000000), (double_of 1000001).
  destruct (double_of_exact 1000000 ltac:(lia)) as [V1 F1]. destruct (double_of_exact 1000001 ltac:(lia)) as [V2 F2].
  split; [exact F1|]. split; [exact F2|]. split; [|vm_compute; reflexivity].
  rewrite V1, V2. intros E. apply eq_IZR in E. discriminate.
Qed.

(** * The accuracy of what is read *)
Lemma pow_small n : (n <= 10)%nat -> 1 - / 10 ^ 12 <= (1 - uro) ^ n /\ (1 + uro) ^ n <= 1 + / 10 ^ 12.
Proof.
  intros Hn. assert (0 < uro < / 10 ^ 14) as Hu.
  { split; [apply bpow_gt_0|]. assert (uro * bpow radix2 53 = 1) as H by (unfold uro; rewrite <-bpow_plus; reflexivity).
    rewrite two53 in H. lra. }
  assert (forall m, (m <= 10)%nat -> 1 - INR m * / 10 ^ 14 <= (1 - uro) ^ m <= 1 /\ 1 <= (1 + uro) ^ m <= 1 + INR m * 2 * / 10 ^ 14) as H.
  { induction m as [|m IH]; intros Hm; [cbn; lra|]. specialize (IH ltac:(lia)). rewrite S_INR. cbn [Rpow_def.pow].
    assert (0 <= INR m <= 10) as Hi by (split; [apply pos_INR|replace 10 with (INR 10) by (rewrite INR_IZR_INZ; reflexivity); apply le_INR; lia]).
    set (a := (1 - uro) ^ m) in *. set (b := (1 + uro) ^ m) in *. clearbody a b. set (u := uro) in *. clearbody u. set (i := INR m) in *. clearbody i.
    split; split; nra. }
  specialize (H n Hn). assert (0 <= INR n <= 10) as Hi by (split; [apply pos_INR|replace 10 with (INR 10) by (rewrite INR_IZR_INZ; reflexivity); apply le_INR; lia]). lra.
Qed.
Lemma read_accurate n x e P : (n <= 10)%nat -> (0 < P <= 12)%nat -> 0 <= e -> within_roundings n x e ->
  exists v, denotes (show64 P x) v /\ Rabs (v - e) <= (/ 2 * bpow ten (1 - Z.of_nat P) + 2 * / 10 ^ 12) * e.
Proof.
  intros Hn HP He [Hf Hx]. destruct (show64_finite P x ltac:(lia) Hf) as (v & Hd & _ & Hv). exists v. split; [exact Hd|].
  destruct (pow_small n Hn) as [H1 H2]. set (a := (1 - uro) ^ n) in *. set (b := (1 + uro) ^ n) in *. clearbody a b.
  assert (0 <= val64 x) as Hp by nra. rewrite (Rabs_pos_eq (val64 x)) in Hv by lra.
  assert (0 < / 2 * bpow ten (1 - Z.of_nat P) <= / 2) as Ht.
  { pose proof (bpow_ten_pos (1 - Z.of_nat P)). assert (bpow ten (1 - Z.of_nat P) <= bpow ten 0) as H' by (apply bpow_le; lia).
    change (bpow ten 0) with 1 in H'. lra. }
  set (t := / 2 * bpow ten (1 - Z.of_nat P)) in *. clearbody t. apply Rabs_le. apply Rabs_le_inv in Hv.
  assert (e * (1 - / 10 ^ 12) <= val64 x <= e * (1 + / 10 ^ 12)) as He' by nra. set (y := val64 x) in *. clearbody y.
  assert (t * y <= t * e + / 2 * (/ 10 ^ 12 * e)) by nra. lra.
Qed.
