(** The relative criterion in doubles; two localities. *)
From Coq Require Import ZArith Reals Psatz.
From Flocq Require Import Core IEEE754.Binary IEEE754.Bits.
From Verif Require Import Spec Conc MSchedule SpecSched SpecBalance Tools PSchedule MCeil MDouble MReport MBalance PCeil PDouble PRound PReport SpecRound PBalance.

#[local] Instance prec53b : Prec_gt_0 53 := eq_refl.
#[local] Instance fexp64_validb : Valid_exp fexp64.
Proof. apply (FLT_exp_valid (-1074) 53). Qed.

Section Relative.
  Local Open Scope R_scope.
  Context (b : binary64) (d m : Z) (Hb : finite64 b = true) (Hd : (0 <= d < 2 ^ 53)%Z) (Hm : (0 < m < 2 ^ 53)%Z).
  Lemma quotient_range : d = 0%Z \/ bpow radix2 (-53) <= IZR d / IZR m <= bpow radix2 53.
  Proof.
    destruct (Z.eq_dec d 0) as [->|Hd0]; [by left|right].
    assert (1 <= IZR d /\ IZR d <= bpow radix2 53) as [H1 H2].
    { split; [apply IZR_le; lia|]. change (bpow radix2 53) with (IZR (2 ^ 53)). apply IZR_le. lia. }
    assert (1 <= IZR m /\ IZR m <= bpow radix2 53) as [H3 H4].
    { split; [apply IZR_le; lia|]. change (bpow radix2 53) with (IZR (2 ^ 53)). apply IZR_le. lia. }
    change (-53)%Z with (- (53))%Z. rewrite bpow_opp. split.
    - apply Rle_trans with (1 / IZR m).
      + unfold Rdiv. rewrite Rmult_1_l. apply Rinv_le; lra.
      + unfold Rdiv. apply Rmult_le_compat_r; [|lra]. apply Rlt_le, Rinv_0_lt_compat. lra.
    - apply Rle_trans with (IZR d / 1); [|lra]. unfold Rdiv. apply Rmult_le_compat_l; [lra|]. apply Rinv_le; lra.
  Qed.
  Lemma quotient_round : IZR d / IZR m * (1 - uro) <= rnd64 (IZR d / IZR m) <= IZR d / IZR m * (1 + uro) /\ Rabs (rnd64 (IZR d / IZR m)) < bpow radix2 1024.
  Proof.
    pose proof uro_pos. pose proof uro_small. destruct quotient_range as [->|[H1 H2]].
    - replace (0 / IZR m) with 0 by (unfold Rdiv; ring). rewrite round_0 by apply _. rewrite Rabs_R0. split; [lra|]. apply bpow_gt_0.
    - pose proof (bpow_gt_0 radix2 (-53)). set (x := IZR d / IZR m) in *. clearbody x.
      assert (Hl : bpow radix2 (-1022) <= Rabs x).
      { rewrite Rabs_pos_eq by lra. apply Rle_trans with (bpow radix2 (-53)); [apply bpow_le; lia|lra]. }
      pose proof (rnd_rel x Hl) as He. rewrite (Rabs_pos_eq x) in He by lra. apply Rabs_le_inv in He. split; [nra|].
      rewrite Rabs_pos_eq by nra. apply Rle_lt_trans with (bpow radix2 54); [|apply bpow_lt; lia].
      change (bpow radix2 54) with (2 * bpow radix2 53). nra.
  Qed.
  Lemma rel64_round : rel64 b d m = Rlt_bool (rnd64 (IZR d / IZR m)) (val64 b).
  Proof.
    destruct (double_of_exact d Hd) as [E1 F1]. destruct (double_of_exact m) as [E2 F2]; [lia|].
    destruct (div_correct64 (double_of d) (double_of m)) as [E F].
    - exact F1.
    - rewrite E2. apply IZR_neq. lia.
    - rewrite E1, E2. apply quotient_round.
    - unfold rel64, b64_compare. rewrite Bcompare_correct by done. rewrite E, E1, E2. unfold Rlt_bool. by destruct (Rcompare _ _).
  Qed.
  Lemma rel64_sound : rel64 b d m = true -> IZR d / IZR m < val64 b.
  Proof.
    rewrite rel64_round. destruct (Rlt_le_dec (IZR d / IZR m) (val64 b)) as [H|H]; [done|].
    rewrite Rlt_bool_false; [done|]. apply round_ge_generic; [apply _|apply _|apply generic_format_B2R|done].
  Qed.
  Lemma rel64_complete : 0 < val64 b -> IZR d / IZR m <= val64 b * (1 - 2 * uro) -> rel64 b d m = true.
  Proof.
    intros Hp H. rewrite rel64_round. apply Rlt_bool_true. destruct quotient_round as [[_ Hr] _].
    pose proof uro_pos. pose proof uro_small. eapply Rle_lt_trans; [exact Hr|]. set (x := IZR d / IZR m) in *. clearbody x.
    apply Rle_lt_trans with (val64 b * (1 - 2 * uro) * (1 + uro)); [nra|]. nra.
  Qed.
End Relative.

Local Open Scope Z_scope.
(** * What a returned schedule guarantees *)
Lemma schedule_relative N mws maxd b fuel L s : 0 <= N -> N * N < 2 ^ 53 -> 0 <= mws -> finite64 b = true ->
  create_schedule_state N mws maxd (rel64 b) fuel L = Ok s ->
  exists mn mx, is_min mn (total_work s) /\ is_max mx (total_work s) /\
    (mx - mn < maxd \/ (0 < mn /\ (IZR (mx - mn) / IZR mn < val64 b)%R) \/ (mx < 2 * mn /\ Z.of_nat L * mx < 2 * (N * N)) \/
     (forall i ws w, total_work s !! i = Some mx -> all_work s !! i = Some ws -> w ∈ ws -> wN w <= mws)).
Proof.
  intros HN HN2 Hmws Hb E. assert (HN2' : N * N < 2 ^ 62) by lia.
  destruct (schedule_factor N mws maxd (rel64 b) HN HN2' Hmws fuel L s E) as [(mn & mx & Hmn & Hmx & Hc)|(mn & mx & Hmn & Hmx & Hc)];
    exists mn, mx; (split; [done|]; split; [done|]); [|by right; right].
  destruct Hc as [Hc|[Hp Hc]]; [by left|right; left]. split; [done|].
  apply state_reach in E as [Hr _]. pose proof (reach_inv N mws maxd (rel64 b) HN HN2' Hmws _ _ Hr) as Hi.
  pose proof (inv_total N mws s mn Hi (proj1 Hmn)). pose proof (inv_total N mws s mx Hi (proj1 Hmx)). pose proof (proj2 Hmx _ (proj1 Hmn)).
  apply rel64_sound; [done|lia|lia|done].
Qed.

(** * Two localities *)
Lemma two_localities h mws maxd rel fuel : 0 < h -> (2 * h) * (2 * h) < 2 ^ 62 -> 1 <= mws < 2 * h -> maxd <= (2 * h) * (2 * h) -> (1 < fuel)%nat ->
  create_schedule_state (2 * h) mws maxd rel fuel 2 =
    Ok (Sched [[Work 0 0 h; Work h 0 h]; [Work 0 h h; Work h h h]] [2 * (h * h); 2 * (h * h)]).
Proof.
  intros Hh HN Hm Hd Hf. assert (Hh2 : h < 2 ^ 31) by nia. assert (0 < h * h) as Hp by nia.
  assert (Hhalf : 2 * h / 2 = h) by (rewrite Z.mul_comm, Z.div_mul; lia).
  assert (Hsq : 2 * h * (2 * h) = 4 * (h * h)) by lia. rewrite Hsq in *.
  destruct fuel as [|[|fuel]]; [lia|lia|].
  assert (S1 : sched_step mws maxd rel (Sched [[Work 0 0 (2 * h)]; []] [4 * (h * h); 0]) =
    Ok (Some (Sched [[Work 0 0 h; Work h 0 h]; [Work 0 h h; Work h h h]] [2 * (h * h); 2 * (h * h)]))).
  { unfold sched_step, fulfills_constraints, lget. cbn [total_work all_work lookup list_lookup rbind tail]. unfold min_max. cbn [foldl fst snd].
    rewrite (proj2 (Z.ltb_lt 0 (4 * (h * h)))) by lia. rewrite (proj2 (Z.ltb_ge (4 * (h * h)) 0)) by lia.
    rewrite Z.sub_0_r, u64_id by lia. rewrite (proj2 (Z.ltb_ge (4 * (h * h)) maxd)) by lia. rewrite Z.ltb_irrefl. cbn [andb rbind].
    unfold extremes_of, lget. cbn [lookup list_lookup rbind tail ext_loop]. unfold ext_step. cbn [e_max e_maxs e_min e_minidx].
    rewrite (proj2 (Z.ltb_lt 0 (4 * (h * h)))) by lia. rewrite (proj2 (Z.ltb_ge (4 * (h * h)) 0)) by lia. rewrite (proj2 (Z.eqb_neq 0 (4 * (h * h)))) by lia.
    cbn [find_package]. unfold lget. cbn [lookup list_lookup rbind]. unfold pick. cbn [pick_loop wN length].
    rewrite (proj2 (Z.leb_gt (2 * h) mws)) by lia. unfold work_difference. cbn [wN]. rewrite Hsq.
    rewrite (u64_id (4 * (h * h))) by lia. replace (4 * (h * h) / 2) with (2 * (h * h)) by (apply (Z.div_unique _ _ _ 0); lia).
    rewrite Z.add_0_l, Z.sub_0_r. rewrite !(u64_id) by lia. rewrite !s64_id by lia. rewrite chk64_ok by lia. cbn [rbind].
    rewrite chk64_ok by lia. cbn [rbind].
    rewrite (u64_id (Z.abs _)) by lia. rewrite (proj2 (Z.leb_le (Z.abs _) _)) by lia. cbn [rbind Nat.eqb].
    unfold split_package, lget. cbn [all_work total_work lookup list_lookup rbind wN wx wy insert list_insert delete list_delete alter list_alter app].
    rewrite Hhalf. rewrite !Z.add_0_l. rewrite (u64_id 0), (u64_id h) by lia. replace (2 * h * h) with (2 * (h * h)) by lia.
    rewrite !(u64_id (2 * (h * h))) by lia. rewrite u64_id by lia. replace (4 * (h * h) - 2 * (h * h)) with (2 * (h * h)) by lia. done. }
  unfold create_schedule_state. cbn [sched_init replicate rbind]. rewrite Hsq, u64_id by lia.
  cbn [sched_loop]. rewrite S1. cbn [rbind].
  assert (S2 : sched_step mws maxd rel (Sched [[Work 0 0 h; Work h 0 h]; [Work 0 h h; Work h h h]] [2 * (h * h); 2 * (h * h)]) = Ok None).
  { unfold sched_step, fulfills_constraints, lget. cbn [total_work all_work lookup list_lookup rbind tail]. unfold min_max. cbn [foldl fst snd].
    rewrite !Z.ltb_irrefl. rewrite Z.sub_diag.
    match goal with |- context [rbind (Ok ?c)] => destruct c end; cbn [rbind]; [done|].
    unfold extremes_of, lget. cbn [lookup list_lookup rbind tail ext_loop]. unfold ext_step. cbn [e_max e_maxs e_min e_minidx].
    rewrite !Z.ltb_irrefl, Z.eqb_refl. cbn [app find_package]. unfold lget. cbn [lookup list_lookup rbind]. unfold pick. cbn [pick_loop wN length].
    rewrite Z.sub_diag. rewrite (u64_id 0) by lia.
    assert (Hw : forall x y, (h <=? mws) = false -> exists d, work_difference (2 * (h * h)) (2 * (h * h)) (Work x y h) = Ok d /\ (u64 d <=? 0) = false).
    { intros x y Hlt%Z.leb_gt. unfold work_difference. cbn [wN]. pose proof (half_bounds (h * h)) as Hb. assert (4 <= h * h) by nia.
      rewrite (u64_id (h * h)) by lia. revert Hb. generalize (h * h / 2). intros q Hb. rewrite !u64_id by lia. rewrite !s64_id by lia. rewrite chk64_ok by lia.
      cbn [rbind]. eexists. rewrite chk64_ok by lia. split; [done|]. rewrite u64_id by lia. apply Z.leb_gt. lia. }
    destruct (h <=? mws) eqn:El; cbn [rbind Nat.eqb]; [done|].
    destruct (Hw 0 0 eq_refl) as (d1 & -> & F1). destruct (Hw h 0 eq_refl) as (d2 & -> & F2). destruct (Hw 0 h eq_refl) as (d3 & -> & F3). destruct (Hw h h eq_refl) as (d4 & -> & F4).
    cbn [rbind]. rewrite F1, F2, F3, F4. done. }
  rewrite S2. done.
Qed.

(** * Five "percent" *)
Lemma percent_witness : exists s, create_schedule_state 4 1 0 (rel64 (double_of 5)) 100 3 = Ok s /\
  is_min 2 (total_work s) /\ is_max 8 (total_work s) /\ ~ stuck 1 s.
Proof.
  exists (Sched [[Work 0 0 2; Work 2 0 1; Work 3 0 1]; [Work 0 2 2; Work 2 2 2]; [Work 2 1 1; Work 3 1 1]] [6; 8; 2]).
  assert (Hmn : is_min 2 [6; 8; 2]).
  { split; [right; right; left|]. intros t Ht. rewrite !elem_of_cons, elem_of_nil in Ht. lia. }
  assert (Hmx : is_max 8 [6; 8; 2]).
  { split; [right; left|]. intros t Ht. rewrite !elem_of_cons, elem_of_nil in Ht. lia. }
  split; [vm_compute; reflexivity|]. split; [exact Hmn|]. split; [exact Hmx|].
  intros (mn & mx & H1 & H2 & H). cbn [total_work] in H1, H2. rewrite (is_min_unique _ _ _ H1 Hmn), (is_max_unique _ _ _ H2 Hmx) in H.
  specialize (H 1%nat _ (Work 0 2 2) eq_refl eq_refl ltac:(left) ltac:(cbn; lia)). vm_compute in H. discriminate.
Qed.
Lemma better_schedule : exists s, create_schedule_state 4 1 0 (rel64 five_percent) 100 3 = Ok s /\ is_min 4 (total_work s) /\ is_max 6 (total_work s).
Proof.
  destruct (create_schedule_state 4 1 0 (rel64 five_percent) 100 3) as [s|] eqn:E; [|vm_compute in E; discriminate].
  exists s. vm_compute in E. injection E as <-. cbn [total_work]. split; [done|]. split.
  - split; [right; left|]. intros t Ht. rewrite !elem_of_cons, elem_of_nil in Ht. lia.
  - split; [left|]. intros t Ht. rewrite !elem_of_cons, elem_of_nil in Ht. lia.
Qed.
