(** The figures of the application, and the programs that ignore --repetitions. *)
From Coq Require Import ZArith Reals Psatz.
From Flocq Require Import Core IEEE754.Binary IEEE754.Bits.
From Verif Require Import Base Conc ConcFacts Num Spec MCeil PCeil MDouble PDouble SpecRound PRound PContract2 PCount PReport MReport MApp SpecApp SpecCount SpecReport.

Lemma known_accepted a v : (a, v) ∈ accepted -> known_algorithm a = true.
Proof. unfold accepted. rewrite !elem_of_cons, elem_of_nil. intros Hv. repeat (destruct Hv as [Hv|Hv]; [by injection Hv as -> _|]). done. Qed.

Lemma repetitions_ignored {T} `{NumOps T} absdiff small o v r G gen :
  (o_algorithm o, v) ∈ accepted -> one_product_only v ->
  main absdiff small (with_repetitions r o) G gen = main absdiff small o G gen.
Proof.
  destruct o as [n tr rep vb br bi ck alg mws mwd rel help]. cbn [o_algorithm]. unfold accepted.
  rewrite !elem_of_cons, elem_of_nil. intros Hv Hone.
  repeat (destruct Hv as [Hv|Hv]; [injection Hv as -> ->; try done; reflexivity|]). done.
Qed.

Local Open Scope R_scope.
Lemma figures_accurate o v d dref : (o_algorithm o, v) ∈ accepted -> o_help o = false ->
  (0 < Z.of_nat (o_n o) < 2 ^ 53)%Z -> (0 < Z.of_nat (o_repetitions o) < 2 ^ 53)%Z -> measurable d -> measurable dref ->
  exists average perf reference, printed_figures o d dref = Some (average, perf, reference) /\
    let N := INR (o_n o) in let r := INR (o_repetitions o) in
    within_roundings 1 average (val64 d / r) /\
    within_roundings 6 perf (r * rate (2 * N * N * N) (val64 d)) /\
    (o_check o = false -> reference = None) /\
    (o_check o = true -> exists x, reference = Some x /\ within_roundings 5 x (rate (2 * N * N * N) (val64 dref))).
Proof.
  intros Hv Hh HN Hr [Fd Hd] [Fd' Hd']. eexists _, _, _. split.
  { unfold printed_figures. rewrite (known_accepted _ v Hv), Hh. cbn [orb negb]. reflexivity. }
  cbv zeta. rewrite !INR_IZR_INZ. split; [by apply average_near|]. split; [|split].
  - unfold rate. pose proof (performance_near _ _ _ _ d Hr HN HN HN Hd) as Hp.
    match goal with |- within_roundings _ _ ?e => match type of Hp with within_roundings _ _ ?e' => replace e with e' by (field; pose proof (bpow_gt_0 radix2 (-300)); lra) end end. exact Hp.
  - by intros ->.
  - intros ->. eexists. split; [reflexivity|]. by apply reference_near.
Qed.

(** The rate of what was computed: one product *)
Lemma overstated o v G d dref : (o_algorithm o, v) ∈ accepted -> one_product_only v -> o_help o = false -> flag_ok o v -> suitable o G v ->
  (0 < Z.of_nat (o_n o) < 2 ^ 53)%Z -> (0 < Z.of_nat (o_repetitions o) < 2 ^ 53)%Z -> measurable d -> measurable dref ->
  exists average perf reference, printed_figures o d dref = Some (average, perf, reference) /\
    always_tol (tolerated v) (computation o G v (unknowns false (o_n o)) (unknowns true (o_n o))) (fun C =>
      let computed := rate (2 * INR (total multiplications C)) (val64 d) in
      within_roundings 6 perf (INR (o_repetitions o) * computed) /\
      ((1 < o_repetitions o)%nat -> 19 / 10 * computed < val64 perf)).
Proof.
  intros Hv Hone Hh Hf Hs HN Hr Hd Hd'.
  destruct (figures_accurate o v d dref Hv Hh HN Hr Hd Hd') as (av&pf&rf&E&_&Hp&_). exists av, pf, rf. split; [exact E|].
  pose proof (count_totals o G v Hf Hs) as Hc. cbv zeta in Hc. unfold always_tol in *. eapply must_mono; [|exact Hc]. cbv beta.
  intros C m (Ht&_). assert (width v (o_n o) = o_n o) as HW by (by destruct v). rewrite HW in Ht. rewrite Ht, !mult_INR.
  replace (2 * (INR (o_n o) * INR (o_n o) * INR (o_n o))) with (2 * INR (o_n o) * INR (o_n o) * INR (o_n o)) by ring.
  cbv zeta in Hp |- *. split; [exact Hp|]. intros Hr2. destruct Hp as [_ [Hp _]]. eapply Rlt_le_trans; [|exact Hp].
  set (c := rate _ _). assert (Hc0 : 0 < c).
  { unfold c, rate. destruct Hd as [_ [Hd _]]. pose proof (bpow_gt_0 radix2 (-300)) as Hb.
    assert (1 <= INR (o_n o)) by (rewrite INR_IZR_INZ; apply (IZR_le 1); lia).
    assert (0 < 2 * INR (o_n o) * INR (o_n o) * INR (o_n o)) by (repeat apply Rmult_lt_0_compat; lra).
    apply Rdiv_lt_0_compat; [|lra]. apply Rdiv_lt_0_compat; lra. }
  assert (2 <= INR (o_repetitions o)) as H2 by (apply (le_INR 2); lia).
  assert (H6 : 19 / 20 < (1 - uro) ^ 6).
  { pose proof uro_pos. pose proof uro_small.
    assert (Hk : forall k, 1 - INR k * uro <= (1 - uro) ^ k).
    { induction k as [|k IH]; [cbn; lra|]. rewrite S_INR. cbn [Rpow_def.pow]. pose proof (pos_INR k). pose proof (v_le k). pose proof (v_pos k). nra. }
    pose proof (Hk 6%nat) as H3. change (INR 6) with (1 + 1 + 1 + 1 + 1 + 1) in H3. lra. }
  replace (19 / 10 * c) with (2 * c * (19 / 20)) by field.
  assert (2 * c * (19 / 20) < 2 * c * (1 - uro) ^ 6) by (apply Rmult_lt_compat_l; lra).
  assert (2 * c * (1 - uro) ^ 6 <= INR (o_repetitions o) * c * (1 - uro) ^ 6); [|lra].
  apply Rmult_le_compat_r; [lra|]. apply Rmult_le_compat_r; lra.
Qed.
