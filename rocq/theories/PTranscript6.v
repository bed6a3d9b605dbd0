(** The output of the benchmark. *)
From Coq Require Import ZArith Reals Ascii String Psatz.
From Flocq Require Import Core IEEE754.Binary IEEE754.Bits.
From Verif Require Import Base Conc Num MCeil PCeil MDouble PDouble SpecRound SpecReport MPrint SpecPrint PPrint PPrint2 MReport PReport MBench
  MTranscript PTranscript PTranscript4 SpecTranscript.

Lemma flops_text : show64 12 (bench_flops64 4096) = "137438953472"%string /\ show64 12 (div64 (bench_flops64 4096) giga) = "137.438953472"%string.
Proof. split; vm_compute; reflexivity. Qed.

Lemma seconds_exact t : (0 <= t < 1000000000000000000)%Z -> denotes (show64 12 (bench_seconds64 t)) (IZR (t / 1000000) / 1000).
Proof.
  intros Ht. set (ms := (t / 1000000)%Z). assert (0 <= ms < 1000000000000)%Z as Hm.
  { unfold ms. split; [apply Z.div_pos; lia|apply Z.div_lt_upper_bound; lia]. }
  unfold bench_seconds64. fold ms. destruct (Z.eq_dec ms 0) as [E|E].
  - rewrite E. assert (div64 (double_of 0) (double_of 1000) = plus_zero) as -> by (apply B2FF_inj; vm_compute; reflexivity).
    exists 0%Z, 0%Z. split; [reflexivity|]. cbn. lra.
  - destruct (round_seconds ms ltac:(lia)) as [[Hf Hn] _]. apply short_survives; [lia| |exact Hf|].
    + exists ms, (-3)%Z. split; [change (10 ^ Z.of_nat 12)%Z with 1000000000000%Z; lia|].
      reflexivity.
    + assert (0 < IZR ms)%R as Hp by (apply IZR_lt; lia).
      rewrite (Rabs_pos_eq (IZR ms / 1000)) by lra. set (x := val64 _) in *. clearbody x.
      assert ((1 - uro) ^ 1 = 1 - uro)%R as E1 by ring. assert ((1 + uro) ^ 1 = 1 + uro)%R as E2 by ring.
      rewrite E1, E2 in Hn.
      apply Rabs_le. lra.
Qed.

Lemma bench_rate_text t : (1000000 <= t < 2 ^ 63)%Z ->
  exists g, denotes (show64 12 (bench_gflops64 4096 t)) g /\
    let e := rate (2 * 4096 * 4096 * 4096) (IZR (t / 1000000) / 1000) in (Rabs (g - e) <= 8 / 10 ^ 12 * e)%R.
Proof.
  intros Ht. destruct (bench_near 4096 t ltac:(lia) Ht) as [Hf Hn].
  destruct (show64_finite 12 _ ltac:(lia) Hf) as (g & Hd & _ & Hg). exists g. split; [exact Hd|]. cbv zeta in Hn |- *.
  change (2 * IZR 4096 * IZR 4096 * IZR 4096 / 1000000000 / (IZR (t / 1000000) / 1000))%R
    with (rate (2 * 4096 * 4096 * 4096) (IZR (t / 1000000) / 1000)) in Hn.
  set (e := rate _ _) in *.
  assert (0 < e)%R as He.
  { unfold e, rate. assert (0 < IZR (t / 1000000))%R as Hp by (apply IZR_lt; apply Z.div_str_pos; lia).
    unfold Rdiv. repeat apply Rmult_lt_0_compat; try lra. apply Rinv_0_lt_compat. apply Rmult_lt_0_compat; lra. }
  destruct (pow_small 5 ltac:(lia)) as [H1 H2]. destruct (pow_small 1 ltac:(lia)) as [H3 H4].
  assert (1 <= (1 + uro) ^ 1)%R as H5 by (pose proof (bpow_gt_0 radix2 (-53)) as Hu; fold uro in Hu; lra).
  assert ((1 - uro) ^ 1 <= 1)%R as H6 by (pose proof (bpow_gt_0 radix2 (-53)) as Hu; fold uro in Hu; lra).
  set (a := ((1 - uro) ^ 5)%R) in *. set (b := ((1 + uro) ^ 5)%R) in *. set (c := ((1 - uro) ^ 1)%R) in *. set (d := ((1 + uro) ^ 1)%R) in *.
  clearbody a b c d e. set (x := val64 _) in *. clearbody x.
  assert (e * (1 - 2 / 10 ^ 12) <= x <= e * (1 + 21 / 10 ^ 13))%R as Hx.
  { assert (0 < / c)%R as Hc by (apply Rinv_0_lt_compat; lra). assert (0 < / d)%R as Hd' by (apply Rinv_0_lt_compat; lra).
    assert (1 - / 10 ^ 12 <= / d)%R as I1.
    { apply (Rmult_le_reg_r d); [lra|]. rewrite Rinv_l by lra. nra. }
    assert (/ c <= 1 + 101 / 10 ^ 14)%R as I2.
    { apply (Rmult_le_reg_r c); [lra|]. rewrite Rinv_l by lra. nra. }
    unfold Rdiv in Hn. assert (e * a * / d <= x <= e * b * / c)%R as Hn' by exact Hn.
    assert (1 - 2 / 10 ^ 12 <= a * / d)%R as J1 by nra. assert (b * / c <= 1 + 21 / 10 ^ 13)%R as J2 by nra.
    rewrite !Rmult_assoc in Hn'. nra. }
  assert (bpow ten (1 - Z.of_nat 12) = / 10 ^ 11)%R as E.
  { change (1 - Z.of_nat 12)%Z with (-11)%Z. assert (bpow ten (-11) * bpow ten 11 = 1)%R as H' by (rewrite <-bpow_plus; reflexivity).
    rewrite (bpow_ten 11) in H' by lia. change (10 ^ 11)%Z with 100000000000%Z in H'. lra. }
  rewrite E in Hg. rewrite (Rabs_pos_eq x) in Hg by nra. apply Rabs_le_inv in Hg. apply Rabs_le. nra.
Qed.
Lemma bench_text argv t check : put (bench_chunks 4096 argv t (BenchRun 0 (Some check))) =
  put ["total flops 2n^3 -> 137438953472"; newline; "gflop: 137.438953472"; newline; "seconds: "; show64 12 (bench_seconds64 t); newline;
       show64 12 (bench_gflops64 4096 t); " Gflops"; newline; "check: "; show64 12 check; newline]%string.
Proof.
  unfold bench_chunks. cbn [b_check]. destruct flops_text as [-> ->]. cbn [put fold_right]. rewrite !append_assoc. reflexivity.
Qed.
Lemma check_text : show64 12 (double_of 8192) = "8192"%string /\ show64 12 (double_of 4096) = "4096"%string /\ show64 12 (double_of 0) = "0"%string.
Proof. split_and!; vm_compute; reflexivity. Qed.
Lemma seconds_zero t : (0 <= t < 1000000)%Z -> show64 12 (bench_seconds64 t) = "0"%string.
Proof. intros Ht. unfold bench_seconds64. rewrite (Z.div_small t 1000000 Ht). vm_compute. reflexivity. Qed.
Lemma rate_inf t : (0 <= t < 1000000)%Z -> show64 12 (bench_gflops64 4096 t) = "inf"%string.
Proof. intros Ht. unfold bench_gflops64, bench_seconds64. rewrite (Z.div_small t 1000000 Ht). vm_compute. reflexivity. Qed.
Lemma bench_output t : (0 <= t < 1000000000000000000)%Z ->
  forall argv check text, show64 12 check = text ->
    exists S G, put (bench_chunks 4096 argv t (BenchRun 0 (Some check))) =
      put ["total flops 2n^3 -> 137438953472"; newline; "gflop: 137.438953472"; newline; "seconds: "; S; newline;
           G; " Gflops"; newline; ("check: " ++ text)%string; newline]%string /\
      denotes S (IZR (t / 1000000) / 1000) /\
      (if (t <? 1000000)%Z then S = "0"%string /\ G = "inf"%string
       else exists g, denotes G g /\
              let e := rate (2 * 4096 * 4096 * 4096) (IZR (t / 1000000) / 1000) in (Rabs (g - e) <= 8 / 10 ^ 12 * e)%R).
Proof.
  intros Ht argv check text <-. exists (show64 12 (bench_seconds64 t)), (show64 12 (bench_gflops64 4096 t)). split; [|split].
  - rewrite bench_text. cbn [put fold_right]. rewrite !append_assoc. reflexivity.
  - exact (seconds_exact t Ht).
  - destruct (Z.ltb_spec t 1000000) as [Hl|Hl].
    + split; [apply seconds_zero; lia|apply rate_inf; lia].
    + apply bench_rate_text. lia.
Qed.
